(** The builder calls implement their specification; rendering. *)
From Verif Require Import GoBase GoBaseFacts XsqlModel XsqlSpec XsqlRunSpec XsqlProofs XsqlPg XsqlRuns.
From Coq Require Import ZifyBool ZifyNat Sorted.
Open Scope Z_scope.

(** ** Simulation relation *)
Definition RepP (buf : bytes) (cs : list chunk) (args : list goany) (h : list write) : Prop :=
  Rep buf cs args h /\ (pg_hist [] h = true -> Forall (pgck buf) cs) /\ Runs buf cs h.

Definition Sim (q : stmt) (s : sstate) : Prop :=
  RepP (st_buf q) (st_chunks q) (st_args q) (s_hist s) /\
  st_pos q = s_cur s /\ st_nl q = s_nl s /\ st_dest q = s_dest s.

(** What a builder call may do to the rest of the statement. *)
Definition Frame (q q' : stmt) : Prop :=
  st_dialect q' = st_dialect q /\
  (st_sql q' = [] \/ (st_sql q' = st_sql q /\ st_buf q' = st_buf q /\ st_chunks q' = st_chunks q)) /\
  exists x, st_buf q' = st_buf q ++ x.

Lemma Frame_refl q : Frame q q.
Proof. split; [reflexivity|]. split; [right; auto|]. exists []. symmetry; apply app_nil_r. Qed.

Lemma Frame_trans a b c : Frame a b -> Frame b c -> Frame a c.
Proof.
  intros (A1 & A2 & x & A3) (B1 & B2 & y & B3). split; [congruence|]. split.
  - destruct B2 as [B2|(B2 & B4 & B5)]; [left; assumption|].
    destruct A2 as [A2|(A2 & A4 & A5)]; [left; congruence|right; repeat split; congruence].
  - exists (x ++ y). rewrite B3, A3, app_assoc. reflexivity.
Qed.

Lemma kw_text_nlkw s kw : kw_text (s_nl s) kw = nlkw s kw.
Proof. reflexivity. Qed.

Lemma addc_sim q s pos kw e a sep :
  Sim q s -> ok_write (s_hist s) (mkWrite pos (nlkw s kw) e a sep) = true ->
  exists q', addc q pos kw e a sep = Some q' /\
    Sim q' (mkS (s_hist s ++ [mkWrite pos (nlkw s kw) e a sep]) pos (s_nl s) (s_dest s)) /\
    Frame q q' /\ st_name q' = st_name q.
Proof.
  intros ((HR & HP & HRun) & Hp & Hn & Hd) Hok. rewrite <- kw_text_nlkw, <- Hn in Hok |- *.
  destruct (add_chunk_rep q (s_hist s) pos kw e a sep HR Hok) as (q' & i & E & HR' & (F1 & F2 & F3 & F4 & F5) & Hs & Hx).
  exists q'. unfold addc. rewrite E. split; [reflexivity|]. split.
  - repeat split; cbn [s_hist s_cur s_nl s_dest]; [exact HR'| | |exact F3|congruence|congruence].
    2: { eapply add_chunk_runs; eassumption. }
    intros Hpg. rewrite pg_hist_snoc in Hpg. apply andb_true_iff in Hpg as [H1 H2].
    eapply add_chunk_pg; [exact HR|exact H2|exact E|auto].
  - split; [|exact F1]. split; [exact F2|]. split; assumption.
Qed.

Lemma nlkw_nil s : nlkw s [] = [].
Proof. reflexivity. Qed.

(** ** Chunk positions *)
Lemma Rep_pos_in buf cs args h p : Rep buf cs args h -> In p (map ck_pos cs) <-> In p (positions h).
Proof.
  intros (css & -> & H2 & _). induction H2 as [|p0 c0 ps css H1 H2 IH]; [reflexivity|].
  cbn [concat]. rewrite map_app, in_app_iff, IH. cbn [In].
  assert (E : In p (map ck_pos c0) <-> p0 = p).
  { pose proof (rg_pos _ _ _ _ H1) as F. pose proof (rg_ne _ _ _ _ H1) as N. rewrite Forall_forall in F.
    rewrite in_map_iff. split.
    - intros (c & <- & Hc). symmetry; auto.
    - intros <-. destruct c0 as [|c c0]; [congruence|]. exists c. split; [apply F|]; left; reflexivity. }
  rewrite E. reflexivity.
Qed.

Lemma Rep_sorted buf cs args h : Rep buf cs args h -> StronglySorted Z.le (map ck_pos cs).
Proof.
  intros (css & -> & H2 & _). pose proof (positions_sorted h) as HS.
  induction H2 as [|p0 c0 ps css H1 H2 IH]; [constructor|].
  inversion HS as [|? ? HS' HF]; subst.
  cbn [concat]. rewrite map_app.
  pose proof (rg_pos _ _ _ _ H1) as F.
  pose proof (forall2_chunk_pos _ _ _ _ _ H2 HF) as G.
  clear H1. induction F as [|c l Hc F IHF]; [exact (IH HS')|].
  cbn [map app]. constructor; [exact IHF|]. apply Forall_app; split.
  - rewrite Forall_map. eapply Forall_impl; [|exact F]. cbn beta. intros; lia.
  - rewrite Forall_map. eapply Forall_impl; [|exact G]. cbn beta. intros; lia.
Qed.

Lemma has_pos_in p h : has_pos p h = true <-> In p (positions h).
Proof.
  rewrite positions_in. unfold has_pos. rewrite negb_true_iff. apply is_empty_false.
Qed.

Lemma find_verb_spec cs : StronglySorted Z.le (map ck_pos cs) ->
  (In 300 (map ck_pos cs) -> find_verb cs = 300) /\
  (~ In 300 (map ck_pos cs) -> In 700 (map ck_pos cs) -> find_verb cs = 700) /\
  (~ In 300 (map ck_pos cs) -> ~ In 700 (map ck_pos cs) -> find_verb cs = 0).
Proof.
  induction cs as [|c cs IH]; intros HS; cbn [find_verb map In].
  - split; [|split]; tauto.
  - cbn [map] in HS. inversion HS as [|? ? HS' HF]; subst. destruct (IH HS') as (I1 & I2 & I3).
    rewrite Forall_forall in HF. unfold posInsert, posUpdate in *.
    destruct (Z.eqb_spec (ck_pos c) 300) as [E|E]; [cbn [orb]; split; [|split]; intros; tauto|].
    destruct (Z.eqb_spec (ck_pos c) 700) as [E2|E2]; cbn [orb].
    + split; [|split]; [|tauto|tauto].
      intros [H|H]; [congruence|]. specialize (HF _ H). lia.
    + split; [|split]; tauto.
Qed.

Lemma set_expr_verb q s : Sim q s ->
  find_verb (st_chunks q) =
  if has_pos 300 (s_hist s) then 300 else if has_pos 700 (s_hist s) then 700 else 0.
Proof.
  intros ((HR & _) & _). destruct (find_verb_spec _ (Rep_sorted _ _ _ _ HR)) as (I1 & I2 & I3).
  pose proof (Rep_pos_in _ _ _ _ 300 HR) as P3. pose proof (Rep_pos_in _ _ _ _ 700 HR) as P7.
  rewrite <- has_pos_in in P3, P7.
  destruct (has_pos 300 (s_hist s)).
  - apply I1, P3. reflexivity.
  - assert (~ In 300 (map ck_pos (st_chunks q))) by (intros X; apply P3 in X; discriminate).
    destruct (has_pos 700 (s_hist s)).
    + apply I2; [assumption|]. apply P7. reflexivity.
    + apply I3; [assumption|]. intros X; apply P7 in X; discriminate.
Qed.

Lemma row_is_first_spec rc : StronglySorted Z.le (rev (map ck_pos rc)) ->
  row_is_first rc = negb (existsb (Z.eqb 500) (map ck_pos rc)).
Proof.
  induction rc as [|c rc IH]; intros HS; [reflexivity|].
  cbn [row_is_first map existsb]. unfold posValues. cbn [map rev] in HS.
  rewrite (Z.eqb_sym (ck_pos c) 500).
  destruct (Z.eqb_spec 500 (ck_pos c)); [reflexivity|]. cbn [orb].
  assert (HS1 : StronglySorted Z.le (rev (map ck_pos rc)) /\ Forall (fun x => x <= ck_pos c) (map ck_pos rc)).
  { clear -HS. rewrite <- (rev_involutive (map ck_pos rc)).
    induction (rev (map ck_pos rc)) as [|x l IH]; [split; simpl; constructor|].
    simpl in HS. inversion HS as [|? ? H1 H2]; subst. apply Forall_app in H2 as [H2 H3]. inversion H3; subst.
    destruct (IH H1) as [A1 A2]. rewrite rev_involutive in A1 |- *. split; [constructor; assumption|].
    rewrite rev_involutive in *. cbn [rev]. apply Forall_app; split; [assumption|]. constructor; [assumption|constructor]. }
  destruct HS1 as [HS1 HF]. destruct (Z.ltb_spec (ck_pos c) 500).
  - symmetry. apply negb_true_iff. apply not_true_iff_false. intros X. apply existsb_exists in X as (x & Hx & Ex).
    rewrite Forall_forall in HF. specialize (HF _ Hx). lia.
  - apply IH; assumption.
Qed.

Lemma row_first_sim q s : Sim q s -> row_is_first (rev (st_chunks q)) = negb (has_pos 500 (s_hist s)).
Proof.
  intros ((HR & _) & _). rewrite row_is_first_spec.
  - f_equal. apply eq_true_iff_eq. rewrite has_pos_in, existsb_exists, <- (Rep_pos_in _ _ _ _ 500 HR).
    rewrite map_rev. split.
    + intros (x & Hx & Ex). apply in_rev in Hx. apply Z.eqb_eq in Ex. subst; assumption.
    + intros Hx. exists 500. rewrite <- in_rev. split; [assumption|apply Z.eqb_refl].
  - rewrite map_rev, rev_involutive. exact (Rep_sorted _ _ _ _ HR).
Qed.

Lemma last_pos_app cs c : last_pos (cs ++ [c]) = Some (ck_pos c).
Proof.
  induction cs as [|d cs IH]; [reflexivity|]. cbn [app]. destruct (cs ++ [c]) eqn:E; [destruct cs; discriminate|].
  exact IH.
Qed.

Lemma last_pos_sim q s : Sim q s -> last_pos (st_chunks q) = max_pos (s_hist s).
Proof.
  intros (((css & E & H2 & _) & _) & _). rewrite E. unfold max_pos.
  remember (positions (s_hist s)) as ps eqn:Eps. clear E Eps.
  destruct ps as [|p ps] using rev_ind.
  - inversion H2; reflexivity.
  - clear IHps. apply Forall2_app_inv_l in H2 as (c1 & c2 & H21 & H22 & ->).
    inversion H22 as [|? cs ? ? Hg Hn]; subst. inversion Hn; subst.
    rewrite concat_app. cbn [concat]. rewrite app_nil_r.
    destruct (last_split cs (rg_ne _ _ _ _ Hg)) as (cs' & c & ->). rewrite app_assoc, last_pos_app.
    pose proof (rg_pos _ _ _ _ Hg) as F. apply Forall_app in F as [_ F]. inversion F; subst.
    destruct (ps ++ [ck_pos c]) eqn:E; [destruct ps; discriminate|]. rewrite <- E, last_last. reflexivity.
Qed.

(** ** SubQuery and Union append to the chunk just written *)
Lemma scan_bound pos rc : forall tail,
  match scan pos rc tail with SMatch i _ => (i < length rc)%nat | SInsert i _ => (i <= length rc)%nat end.
Proof.
  induction rc as [|c rc IH]; intros tail; cbn [scan length]; [lia|].
  destruct (ck_pos c =? pos); [lia|]. destruct (ck_pos c <? pos); [lia|].
  specialize (IH (tail + ck_argLen c)%nat). destruct (scan pos rc (tail + ck_argLen c)); lia.
Qed.

Lemma nth_insert l i c : (i <= length l)%nat -> nth_error (insert_chunk l i c) i = Some c.
Proof.
  intros H. unfold insert_chunk. rewrite nth_error_app2 by (rewrite firstn_length; lia).
  rewrite firstn_length, Nat.min_l by lia. rewrite Nat.sub_diag. reflexivity.
Qed.

Lemma update_insert l i c d : (i <= length l)%nat -> update_chunk (insert_chunk l i c) i d = insert_chunk l i d.
Proof.
  intros H. unfold update_chunk, insert_chunk.
  rewrite firstn_app, firstn_firstn, Nat.min_id, firstn_length, Nat.min_l by lia.
  rewrite Nat.sub_diag, firstn_O, app_nil_r. f_equal. f_equal.
  rewrite skipn_app, firstn_length, Nat.min_l by lia.
  rewrite skipn_all2 by (rewrite firstn_length; lia).
  replace (S i - i)%nat with 1%nat by lia. reflexivity.
Qed.

Lemma nth_update l i c d : nth_error l i = Some d -> nth_error (update_chunk l i c) i = Some c.
Proof.
  intros H. assert (i < length l)%nat by (apply nth_error_Some; congruence).
  unfold update_chunk. rewrite nth_error_app2 by (rewrite firstn_length; lia).
  rewrite firstn_length, Nat.min_l by lia. rewrite Nat.sub_diag. reflexivity.
Qed.

Lemma update_update l i c d x : nth_error l i = Some x -> update_chunk (update_chunk l i c) i d = update_chunk l i d.
Proof.
  intros Hx. assert (i < length l)%nat by (apply nth_error_Some; congruence).
  unfold update_chunk.
  rewrite firstn_app, firstn_firstn, Nat.min_id, firstn_length, Nat.min_l by lia.
  rewrite Nat.sub_diag, firstn_O, app_nil_r. f_equal. f_equal.
  rewrite skipn_app, firstn_length, Nat.min_l by lia.
  rewrite skipn_all2 by (rewrite firstn_length; lia).
  replace (S i - i)%nat with 1%nat by lia. reflexivity.
Qed.

Lemma finish_chunk_tail q1 q2 args tail i text :
  st_args q1 = st_args q2 -> st_name q1 = st_name q2 -> st_dialect q1 = st_dialect q2 ->
  st_pos q1 = st_pos q2 -> st_dest q1 = st_dest q2 -> st_nl q1 = st_nl q2 ->
  st_buf q2 = st_buf q1 ++ text ->
  (exists c, nth_error (st_chunks q1) i = Some c /\
     st_chunks q2 = update_chunk (st_chunks q1) i (mkChunk (ck_pos c) (ck_low c) (length (st_buf q2)) (ck_has c) (ck_argLen c))) ->
  (do (q, ix) <- finish_chunk q1 args tail i; write_tail q ix text) =
  (do (q, ix) <- finish_chunk q2 args tail i; Some q).
Proof.
  intros E1 E2 E3 E4 E5 E6 E7 (c & Hc & E8). destruct q1, q2; cbn in *; subst.
  unfold finish_chunk. cbn [st_args]. destruct args as [|a r].
  - cbn. unfold write_tail. cbn. rewrite Hc. reflexivity.
  - destruct (insert_at _ _ _) as [l|]; [|reflexivity]. cbn. unfold write_tail. cbn. rewrite Hc. reflexivity.
Qed.

Lemma add_chunk_tail q pos kw expr args sep text : is_empty expr = false ->
  (do (q1, ix) <- add_chunk q pos kw expr args sep; write_tail q1 ix text) =
  addc q pos kw (expr ++ text) args sep.
Proof.
  intros He. assert (He2 : is_empty (expr ++ text) = false) by (destruct expr; [discriminate|reflexivity]).
  unfold addc, add_chunk. cbn [set_pos st_chunks st_buf st_args st_nl].
  pose proof (scan_bound pos (rev (st_chunks q)) 0) as HB. rewrite rev_length in HB.
  destruct (scan pos (rev (st_chunks q)) 0) as [i tail|i tail].
  - destruct (nth_error (st_chunks q) i) as [c|] eqn:En; [|reflexivity].
    rewrite He, He2. destruct (Nat.eqb (ck_high c) (length (st_buf q))).
    + rewrite (finish_chunk_tail _ (set_chunks (set_buf (set_pos q pos) ((st_buf q ++ (if ck_has c then sep else B " ")) ++ expr ++ text))
         (update_chunk (st_chunks q) i (mkChunk (ck_pos c) (ck_low c) (length ((st_buf q ++ (if ck_has c then sep else B " ")) ++ expr ++ text)) true (ck_argLen c + length args)))) args tail i text); try reflexivity.
      * cbn. rewrite <- !app_assoc. reflexivity.
      * cbn [st_chunks set_chunks set_buf st_buf set_pos]. eexists; split; [eapply nth_update; exact En|].
        cbn [ck_pos ck_low ck_has ck_argLen]. erewrite update_update by exact En. reflexivity.
    + rewrite (finish_chunk_tail _ (set_chunks (set_buf (set_pos q pos) ((st_buf q ++ (if ck_has c then sep else B " ")) ++ expr ++ text))
         (insert_chunk (st_chunks q) (S i) (mkChunk pos (length (st_buf q)) (length ((st_buf q ++ (if ck_has c then sep else B " ")) ++ expr ++ text)) true (length args)))) args tail (S i) text); try reflexivity.
      * cbn. rewrite <- !app_assoc. reflexivity.
      * cbn [st_chunks set_chunks set_buf st_buf set_pos]. eexists; split; [apply nth_insert; lia|].
        cbn [ck_pos ck_low ck_has ck_argLen]. rewrite update_insert by lia. reflexivity.
  - rewrite He, He2.
    set (k := if is_empty kw then [] else _).
    rewrite (finish_chunk_tail _ (set_chunks (set_buf (set_pos q pos) (st_buf q ++ k ++ expr ++ text))
         (insert_chunk (st_chunks q) i (mkChunk pos (length (st_buf q)) (length (st_buf q ++ k ++ expr ++ text)) true (length args)))) args tail i text); try reflexivity.
    + cbn. rewrite <- !app_assoc. reflexivity.
    + cbn [st_chunks set_chunks set_buf st_buf set_pos]. eexists; split; [apply nth_insert; lia|].
      cbn [ck_pos ck_low ck_has ck_argLen]. rewrite update_insert by lia. reflexivity.
Qed.

Lemma add_chunk_kw_tail q pos kw args sep text : kw <> [] -> ~ In pos (map ck_pos (st_chunks q)) ->
  (do (q1, ix) <- add_chunk q pos kw [] args sep; write_tail q1 ix text) =
  addc q pos (kw ++ text) [] args sep.
Proof.
  intros Hk Hn. unfold addc, add_chunk. cbn [set_pos st_chunks st_buf st_args st_nl].
  pose proof (scan_bound pos (rev (st_chunks q)) 0) as HB. rewrite rev_length in HB.
  destruct (scan pos (rev (st_chunks q)) 0) as [i tail|i tail] eqn:Es.
  - exfalso. apply Hn. clear -Es. rewrite <- (rev_involutive (st_chunks q)), map_rev, <- in_rev.
    revert Es. generalize 0%nat. induction (rev (st_chunks q)) as [|c l IH]; intros t; cbn [scan]; [discriminate|].
    destruct (Z.eqb_spec (ck_pos c) pos) as [E|E]; [left; exact E|].
    destruct (ck_pos c <? pos); [discriminate|]. intros E'. right. eapply IH; exact E'.
  - assert (Ek : is_empty kw = false) by (apply is_empty_false; exact Hk).
    assert (Ek2 : is_empty (kw ++ text) = false) by (destruct kw; [congruence|reflexivity]).
    rewrite Ek, Ek2. cbn [is_empty negb]. rewrite !app_nil_r.
    set (nl := if st_nl q then _ else _).
    rewrite (finish_chunk_tail _ (set_chunks (set_buf (set_pos q pos) (st_buf q ++ nl ++ kw ++ text))
         (insert_chunk (st_chunks q) i (mkChunk pos (length (st_buf q)) (length (st_buf q ++ nl ++ kw ++ text)) false (length args)))) args tail i text); try reflexivity.
    + cbn. rewrite <- !app_assoc. reflexivity.
    + cbn [st_chunks set_chunks set_buf st_buf set_pos]. eexists; split; [apply nth_insert; lia|].
      cbn [ck_pos ck_low ck_has ck_argLen]. rewrite update_insert by lia. reflexivity.
Qed.

Lemma sub_query_addc q p x t a : p <> [] ->
  sub_query_raw q p x t a =
  addc q (st_pos q) [] (p ++ t ++ x) a (if st_pos q =? posWhere then B " AND " else B ", ").
Proof. intros H. unfold sub_query_raw. apply add_chunk_tail. apply is_empty_false; exact H. Qed.

Lemma in_marks_join n : in_marks n = join (B ",") (repeat (B "?") n).
Proof.
  induction n as [|n IH]; [reflexivity|]. destruct n as [|n]; [reflexivity|].
  change (in_marks (S (S n))) with (B "?," ++ in_marks (S n)). rewrite IH. reflexivity.
Qed.

Lemma max_pos_spec h l : max_pos h = Some l -> forall p, In p (positions h) -> p <= l.
Proof.
  unfold max_pos. pose proof (positions_sorted h) as HS. intros E p Hp.
  destruct (positions h) as [|x ps] using rev_ind; [destruct Hp|]. clear IHps.
  assert (l = x) as ->.
  { destruct (ps ++ [x]) eqn:E2; [destruct ps; discriminate|]. rewrite <- E2, last_last in E. congruence. }
  apply in_app_or in Hp as [Hp|[->|[]]]; [|lia].
  clear -HS Hp. induction ps as [|y ps IH]; [destruct Hp|]. cbn [app] in HS. inversion HS as [|? ? H1 H2]; subst.
  destruct Hp as [->|Hp]; [|auto]. apply Forall_app in H2 as [_ H2]. inversion H2; subst. lia.
Qed.

Lemma max_pos_none h : max_pos h = None -> positions h = [].
Proof. unfold max_pos. destruct (positions h); [reflexivity|discriminate]. Qed.

Definition union_rank (h : list write) : Z :=
  match max_pos h with None => 1500 | Some l => if 1500 <=? l then l + 1 else 1500 end.

Lemma union_rank_fresh h : ~ In (union_rank h) (positions h).
Proof.
  unfold union_rank. destruct (max_pos h) as [l|] eqn:E.
  - intros Hin. pose proof (max_pos_spec _ _ E _ Hin). destruct (Z.leb_spec 1500 l); lia.
  - rewrite (max_pos_none _ E). intros [].
Qed.

Lemma union_addc q s all t a : Sim q s ->
  union_raw q all t a = addc q (union_rank (s_hist s)) ((if all then B "UNION ALL " else B "UNION ") ++ t) [] a [].
Proof.
  intros HS. unfold union_raw. rewrite (last_pos_sim _ _ HS).
  change (match max_pos (s_hist s) with None => posUnion | Some l => if posUnion <=? l then l + 1 else posUnion end)
    with (union_rank (s_hist s)).
  apply add_chunk_kw_tail; [destruct all; discriminate|].
  destruct HS as ((HR & _) & _). rewrite (Rep_pos_in _ _ _ _ _ HR). apply union_rank_fresh.
Qed.

Lemma ok_writes_app h a b : ok_writes h (a ++ b) = ok_writes h a && ok_writes (h ++ a) b.
Proof.
  revert h; induction a as [|w a IH]; intros h; cbn [app ok_writes]; [rewrite app_nil_r; reflexivity|].
  rewrite IH, andb_assoc. rewrite <- app_assoc. reflexivity.
Qed.

(** State reached by a list of writes. *)
Definition wst (s : sstate) (ws : list write) (cur : Z) : sstate :=
  mkS (s_hist s ++ ws) cur (s_nl s) (s_dest s).

Lemma nlkw_wst s ws c kw : nlkw (wst s ws c) kw = nlkw s kw.
Proof. reflexivity. Qed.

Lemma addc_step q s ws cur pos kw e a sep :
  Sim q (wst s ws cur) -> ok_writes (s_hist s ++ ws) [mkWrite pos (nlkw s kw) e a sep] = true ->
  exists q', addc q pos kw e a sep = Some q' /\
    Sim q' (wst s (ws ++ [mkWrite pos (nlkw s kw) e a sep]) pos) /\
    Frame q q' /\ st_name q' = st_name q.
Proof.
  intros HS Hok. cbn [ok_writes] in Hok. rewrite andb_true_r in Hok.
  destruct (addc_sim q (wst s ws cur) pos kw e a sep HS Hok) as (q' & E & HS' & HF).
  exists q'. split; [exact E|]. split; [|exact HF].
  destruct HS' as (R & A1 & A2 & A3). unfold wst in *; cbn [s_hist s_cur s_nl s_dest] in *.
  unfold nlkw in R; cbn [s_nl] in R. rewrite <- app_assoc in R. split; [|split; [|split]]; try assumption; try reflexivity.
Qed.

Lemma wst_nil s : wst s [] (s_cur s) = s.
Proof. destruct s. unfold wst; cbn. rewrite app_nil_r. reflexivity. Qed.

Lemma ok_writes_cons h w r : ok_writes h (w :: r) = true ->
  ok_writes h [w] = true /\ ok_writes (h ++ [w]) r = true.
Proof. cbn [ok_writes]. rewrite andb_true_r. apply andb_true_iff. Qed.

(** SetExpr inside NewRow. *)
Lemma row_sets_sim first sets : forall q s ws cur ne,
  Sim q (wst s ws cur) -> ok_writes (s_hist s ++ ws) (row_writes first ne sets) = true ->
  exists q', row_sets q (mkRow first ne) sets = Some q' /\
    Sim q' (wst s (ws ++ row_writes first ne sets)
              (match row_writes first ne sets with [] => cur | l => w_pos (last l (mkWrite 0 [] [] [] [])) end)) /\
    Frame q q' /\ st_name q' = st_name q.
Proof.
  induction sets as [|[[f e] a] sets IH]; intros q s ws cur ne HS Hok.
  - exists q. cbn. rewrite app_nil_r. split; [reflexivity|]. split; [exact HS|]. split; [apply Frame_refl|reflexivity].
  - cbn [row_writes] in Hok |- *. fold (row_writes first) in *.
    cbn [row_sets]. unfold row_set_expr. cbn [row_first row_notEmpty]. destruct first.
    + cbn [app] in Hok |- *. apply ok_writes_cons in Hok as [O1 Hok]. apply ok_writes_cons in Hok as [O2 Hok].
      destruct (addc_step q s ws cur posInsertFields [] f [] (B ", ") HS O1) as (q1 & -> & HS1 & F1 & N1).
      cbn [bind].
      rewrite <- (app_assoc (s_hist s)) in O2.
      destruct (addc_step q1 s _ _ posValues [] e a (B ", ") HS1 O2) as (q2 & -> & HS2 & F2 & N2).
      cbn [bind]. rewrite <- app_assoc in HS2. cbn [app] in HS2.
      destruct (IH q2 s _ _ true HS2) as (q3 & -> & HS3 & F3 & N3).
      { rewrite <- !app_assoc in Hok. cbn [app] in Hok. rewrite nlkw_nil. exact Hok. }
      exists q3. split; [reflexivity|]. rewrite <- app_assoc in HS3. cbn [app] in HS3.
      rewrite !nlkw_nil in HS3. split.
      * destruct (row_writes true true sets) eqn:E; exact HS3.
      * split; [eapply Frame_trans; [|exact F3]; eapply Frame_trans; eassumption|congruence].
    + cbn [app] in Hok |- *. apply ok_writes_cons in Hok as [O1 Hok].
      destruct (addc_step q s ws cur posValues [] e a (if ne then B ", " else []) HS O1) as (q1 & -> & HS1 & F1 & N1).
      cbn [bind].
      destruct (IH q1 s _ _ true HS1) as (q3 & -> & HS3 & F3 & N3).
      { rewrite <- !app_assoc in Hok. cbn [app] in Hok. rewrite nlkw_nil, <- ?app_assoc. exact Hok. }
      exists q3. split; [reflexivity|]. rewrite <- app_assoc in HS3. cbn [app] in HS3.
      rewrite !nlkw_nil in HS3. split.
      * destruct (row_writes false true sets) eqn:E; exact HS3.
      * split; [eapply Frame_trans; eassumption|congruence].
Qed.

(** ** Bind *)
Fixpoint bind_list (l : list (bytes * Z)) (q : stmt) : option stmt :=
  match l with
  | [] => Some q
  | (n, addr) :: r =>
      do q1 <- addc q posSelect (B "SELECT") n [] (B ", "); bind_list r (to_dest q1 [addr])
  end.

Lemma bind_list_app a b q : bind_list (a ++ b) q = (do q1 <- bind_list a q; bind_list b q1).
Proof.
  revert q; induction a as [|[n d] a IH]; intros q; [reflexivity|].
  cbn [app bind_list]. destruct (addc q posSelect (B "SELECT") n [] (B ", ")); [|reflexivity]. cbn [bind]. apply IH.
Qed.

Section BField.
  Variable P : bfield -> Prop.
  Hypothesis HE : forall fs, Forall P fs -> P (BEmbedded fs).
  Hypothesis HL : forall t a, P (BLeaf t a).
  Fixpoint bfield_ind' (f : bfield) : P f :=
    match f with
    | BEmbedded fs => HE fs ((fix go l : Forall P l :=
        match l with [] => Forall_nil P | g :: l' => Forall_cons g (bfield_ind' g) (go l') end) fs)
    | BLeaf t a => HL t a
    end.
End BField.

Lemma bind_field_list f : forall q, bind_field f q = bind_list (bind_leaves f) q.
Proof.
  induction f as [fs H|t a] using bfield_ind'; intros q.
  - cbn [bind_field bind_leaves]. revert q. induction H as [|g l Hg H IH]; intros q; [reflexivity|].
    cbn [flat_map]. rewrite bind_list_app, <- Hg. destruct (bind_field g q); [|reflexivity]. cbn [bind]. apply IH.
  - cbn [bind_field bind_leaves]. destruct (is_empty t); [reflexivity|]. cbn [bind_list].
    destruct (addc _ _ _ _ _ _); reflexivity.
Qed.

Lemma bind_fields_list fs : forall q, bind_fields fs q = bind_list (flat_map bind_leaves fs) q.
Proof.
  induction fs as [|f fs IH]; intros q; [reflexivity|]. cbn [bind_fields flat_map].
  rewrite bind_list_app, <- bind_field_list. destruct (bind_field f q); [|reflexivity]. cbn [bind]. apply IH.
Qed.

Definition bst (s : sstate) (ws : list write) (cur : Z) (ds : list Z) : sstate :=
  mkS (s_hist s ++ ws) cur (s_nl s) (s_dest s ++ ds).

Lemma bind_list_sim l : forall q s ws cur ds,
  Sim q (bst s ws cur ds) ->
  exists q', bind_list l q = Some q' /\
    Sim q' (bst s (ws ++ map (fun x => mkWrite 900 (nlkw s (B "SELECT")) (fst x) [] (B ", ")) l)
                (match l with [] => cur | _ => 900 end) (ds ++ map snd l)) /\
    Frame q q' /\ st_name q' = st_name q.
Proof.
  induction l as [|[n d] l IH]; intros q s ws cur ds HS.
  - exists q. cbn. rewrite !app_nil_r. split; [reflexivity|]. split; [exact HS|]. split; [apply Frame_refl|reflexivity].
  - cbn [bind_list map fst snd].
    destruct (addc_sim q (bst s ws cur ds) posSelect (B "SELECT") n [] (B ", ") HS) as (q1 & -> & HS1 & F1 & N1);
      [reflexivity|]. cbn [bind].
    destruct (IH (to_dest q1 [d]) s (ws ++ [mkWrite 900 (nlkw s (B "SELECT")) n [] (B ", ")]) 900 (ds ++ [d]))
      as (q2 & -> & HS2 & F2 & N2).
    { destruct HS1 as (R & A1 & A2 & A3). unfold bst in *; cbn [s_hist s_cur s_nl s_dest] in *.
      unfold Sim. cbn [to_dest set_dest st_buf st_chunks st_args st_pos st_nl st_dest s_hist s_cur s_nl s_dest].
      rewrite A3. rewrite <- !app_assoc in R. rewrite <- !app_assoc. split; [|split; [|split]]; try assumption; try reflexivity.
   }
    exists q2. split; [reflexivity|]. split.
    + rewrite <- !app_assoc in HS2. cbn [app] in HS2. destruct l; exact HS2.
    + split; [eapply Frame_trans; [exact F1|]; eapply Frame_trans; [|exact F2]; split; [reflexivity|];
        split; [right; auto|exists []; symmetry; apply app_nil_r]|].
      cbn in N2. congruence.
Qed.

(** ** All calls *)
Definition name_after (c : bcall) (n : bytes) : bytes := match c with CSetName m => m | _ => n end.

Lemma wst_dest s ws cur : mkS (s_hist s ++ ws) cur (s_nl s) (s_dest s ++ []) = wst s ws cur.
Proof. unfold wst. rewrite app_nil_r. reflexivity. Qed.

Lemma addc_one q s pos kw e a sep : Sim q s -> ok_writes (s_hist s) [mkWrite pos (nlkw s kw) e a sep] = true ->
  exists q', addc q pos kw e a sep = Some q' /\
    Sim q' (mkS (s_hist s ++ [mkWrite pos (nlkw s kw) e a sep]) pos (s_nl s) (s_dest s ++ [])) /\
    Frame q q' /\ st_name q' = st_name q.
Proof.
  intros HS Hok. rewrite <- (wst_nil s) in HS. rewrite <- (app_nil_r (s_hist s)) in Hok.
  destruct (addc_step q s [] _ pos kw e a sep HS Hok) as (q' & E & HS' & F).
  exists q'. rewrite wst_dest. split; [exact E|]. split; [exact HS'|exact F].
Qed.

Lemma call_sim q s c : Sim q s -> ok_call s c = true ->
  exists q', call q c = Some q' /\ Sim q' (spec_call s c) /\ Frame q q' /\
             st_name q' = name_after c (st_name q).
Proof.
  intros HS Hok. unfold ok_call in Hok. apply andb_true_iff in Hok as [Hok Hsub].
  assert (HS0 : Sim q (wst s [] (s_cur s))) by (rewrite wst_nil; exact HS).
  assert (Hid : forall q', st_buf q' = st_buf q -> st_chunks q' = st_chunks q -> st_dialect q' = st_dialect q ->
            st_sql q' = st_sql q \/ st_sql q' = [] -> Frame q q').
  { intros q' E1 E2 E3 E4. split; [exact E3|]. split; [destruct E4; [right|left]; auto|].
    exists []. rewrite app_nil_r; exact E1. }
  destruct HS as (HR0 & Hp & Hn & Hd).
  assert (HS : Sim q s) by (split; [exact HR0|auto]).
  destruct c; cbn [call name_after] in *; unfold spec_call, cur_after, dests, emits in *; cbn [last w_pos] in *;
    try (apply addc_one; assumption).
  - (* To *)
    eexists; split; [reflexivity|]. split; [|split; [apply Hid; auto|reflexivity]].
    unfold Sim; cbn. rewrite ?app_nil_r, ?Hd. split; [|split; [|split]]; try assumption; try reflexivity.
  - (* InsertInto *)
    unfold insert_into.
    apply ok_writes_cons in Hok as [O1 Hok]. apply ok_writes_cons in Hok as [O2 Hok].
    apply ok_writes_cons in Hok as [O3 O4]. rewrite <- (app_nil_r (s_hist s)) in O1.
    destruct (addc_step q s [] _ posInsert (B "INSERT INTO") t [] (B ", ") HS0 O1) as (q1 & -> & S1 & F1 & N1). cbn [bind].
    destruct (addc_step q1 s _ _ (posInsertFields - 1) (B "(") [] [] [] S1 O2) as (q2 & -> & S2 & F2 & N2). cbn [bind].
    rewrite <- app_assoc in O3. cbn [app] in S2.
    destruct (addc_step q2 s _ _ (posValues - 1) (B ") VALUES (") [] [] [] S2 O3) as (q3 & -> & S3 & F3 & N3). cbn [bind].
    rewrite <- !app_assoc in O4. cbn [app] in S3.
    destruct (addc_step q3 s _ _ (posValues + 1) (B ")") [] [] [] S3 O4) as (q4 & -> & S4 & F4 & N4). cbn [bind].
    eexists; split; [reflexivity|]. split; [|split].
    + destruct S4 as (R & A1 & A2 & A3). rewrite wst_dest. split; [|split; [|split]]; try assumption; try reflexivity.
    + eapply Frame_trans; [exact F1|]. eapply Frame_trans; [exact F2|]. eapply Frame_trans; [exact F3|].
      eapply Frame_trans; [exact F4|]. split; [reflexivity|]. split; [right; auto|exists []; symmetry; apply app_nil_r].
    + cbn. congruence.
  - (* Set *)
    unfold set_expr. rewrite (set_expr_verb _ _ HS).
    destruct (has_pos 300 (s_hist s)); [|destruct (has_pos 700 (s_hist s))]; cbn [Z.eqb posInsert posUpdate].
    + apply ok_writes_cons in Hok as [O1 O2]. rewrite <- (app_nil_r (s_hist s)) in O1.
      destruct (addc_step q s [] _ posInsertFields [] f [] (B ", ") HS0 O1) as (q1 & -> & S1 & F1 & N1). cbn [bind].
      destruct (addc_step q1 s _ _ posValues [] (B "?") [v] (B ", ") S1 O2) as (q2 & -> & S2 & F2 & N2).
      eexists; split; [reflexivity|]. rewrite wst_dest. split; [exact S2|]. split; [eapply Frame_trans; eassumption|congruence].
    + cbn. apply addc_one; assumption.
    + cbn. eexists; split; [reflexivity|]. split; [|split; [apply Frame_refl|reflexivity]].
      unfold Sim; cbn. rewrite !app_nil_r. split; [|split; [|split]]; try assumption; try reflexivity.
  - (* SetExpr *)
    unfold set_expr. rewrite (set_expr_verb _ _ HS).
    destruct (has_pos 300 (s_hist s)); [|destruct (has_pos 700 (s_hist s))]; cbn [Z.eqb posInsert posUpdate].
    + apply ok_writes_cons in Hok as [O1 O2]. rewrite <- (app_nil_r (s_hist s)) in O1.
      destruct (addc_step q s [] _ posInsertFields [] f [] (B ", ") HS0 O1) as (q1 & -> & S1 & F1 & N1). cbn [bind].
      destruct (addc_step q1 s _ _ posValues [] e a (B ", ") S1 O2) as (q2 & -> & S2 & F2 & N2).
      eexists; split; [reflexivity|]. rewrite wst_dest. split; [exact S2|]. split; [eapply Frame_trans; eassumption|congruence].
    + cbn. apply addc_one; assumption.
    + cbn. eexists; split; [reflexivity|]. split; [|split; [apply Frame_refl|reflexivity]].
      unfold Sim; cbn. rewrite !app_nil_r. split; [|split; [|split]]; try assumption; try reflexivity.
  - (* In *)
    unfold in_text. rewrite in_marks_join. apply addc_one; assumption.
  - (* Paginate *)
    unfold paginate.
    replace (if size <? 1 then 1 else size) with (Z.max 1 size) by (destruct (Z.ltb_spec size 1); lia).
    destruct (Z.ltb_spec page 1) as [Hpg|Hpg].
    + destruct (Z.ltb_spec 1 page); [lia|]. cbn [Z.ltb Z.compare bind app]. apply addc_one; assumption.
    + destruct (Z.ltb_spec 1 page).
      * cbn [app] in Hok |- *. apply ok_writes_cons in Hok as [O1 O2]. rewrite <- (app_nil_r (s_hist s)) in O1.
        unfold offset, limit.
        destruct (addc_step q s [] _ posOffset (B "OFFSET ?") [] _ [] HS0 O1) as (q1 & -> & S1 & F1 & N1). cbn [bind].
        destruct (addc_step q1 s _ _ posLimit (B "LIMIT ?") [] _ [] S1 O2) as (q2 & -> & S2 & F2 & N2).
        eexists; split; [reflexivity|]. rewrite wst_dest. split; [exact S2|]. split; [eapply Frame_trans; eassumption|congruence].
      * cbn [bind app]. apply addc_one; assumption.
  - (* Expr *)
    rewrite Hp. apply addc_one; assumption.
  - (* Clause *)
    unfold clause. rewrite (last_pos_sim _ _ HS). apply addc_one; assumption.
  - (* With *)
    unfold with_raw. apply ok_writes_cons in Hok as [O1 O2]. rewrite <- (app_nil_r (s_hist s)) in O1.
    destruct (addc_step q s [] _ posWith (B "WITH") [] [] [] HS0 O1) as (q1 & -> & S1 & F1 & N1). cbn [bind].
    rewrite sub_query_addc by (intros E; apply app_eq_nil in E as [_ E]; discriminate).
    destruct S1 as (R1 & A1 & A2 & A3). cbn [wst s_cur] in A1. rewrite A1.
    assert (S1 : Sim q1 (wst s [mkWrite 200 (nlkw s (B "WITH")) [] [] []] 200)) by (split; [|split; [|split]]; try assumption; try reflexivity).
    rewrite <- !app_assoc.
    destruct (addc_step q1 s _ _ 200 [] (name ++ B " AS (" ++ text ++ B ")") a (B ", ") S1 O2) as (q2 & E2 & S2 & F2 & N2).
    exists q2. split; [exact E2|]. rewrite wst_dest. split; [exact S2|]. split; [eapply Frame_trans; eassumption|congruence].
  - (* SubQuery *)
    apply negb_true_iff, is_empty_false in Hsub. rewrite sub_query_addc by assumption. rewrite Hp.
    unfold posWhere. apply addc_one; assumption.
  - (* Union *)
    rewrite (union_addc _ _ _ _ _ HS). unfold union_rank. apply addc_one; assumption.
  - (* NewRow *)
    unfold new_row. rewrite (row_first_sim _ _ HS).
    destruct (has_pos 500 (s_hist s)); cbn [negb] in *.
    + apply ok_writes_cons in Hok as [O1 O2]. rewrite <- (app_nil_r (s_hist s)) in O1.
      destruct (addc_step q s [] _ posValues [] (B " ") [] (B " ), (") HS0 O1) as (q1 & -> & S1 & F1 & N1). cbn [bind].
      destruct (row_sets_sim false sets q1 s _ _ false S1 O2) as (q2 & E2 & S2 & F2 & N2).
      exists q2. split; [exact E2|]. rewrite wst_dest. cbn [app] in S2. rewrite nlkw_nil in S2. split.
      * destruct (row_writes false false sets); exact S2.
      * split; [eapply Frame_trans; eassumption|congruence].
    + cbn [bind]. rewrite <- (app_nil_r (s_hist s)) in Hok.
      destruct (row_sets_sim true sets q s [] _ false HS0 Hok) as (q2 & E2 & S2 & F2 & N2).
      exists q2. split; [exact E2|]. rewrite wst_dest. cbn [app] in S2.
      split; [destruct (row_writes true false sets); exact S2|]. split; assumption.
  - (* Bind *)
    rewrite bind_fields_list.
    assert (HS1 : Sim q (bst s [] (s_cur s) [])).
    { unfold bst. rewrite !app_nil_r. destruct s; exact HS. }
    destruct (bind_list_sim (flat_map bind_leaves fs) q s [] _ [] HS1) as (q' & E & S' & F' & N').
    exists q'. split; [exact E|]. split; [|split; assumption].
    cbn [app] in S'. unfold bst in S'.
    destruct (flat_map bind_leaves fs) as [|x l] eqn:El; [exact S'|].
    cbn [map] in *. match goal with |- Sim _ (mkS _ ?p _ _) => replace p with 900; [exact S'|] end.
    clear. revert x; induction l as [|y l IH]; intros x; [reflexivity|]. exact (IH y).
  - (* UseNewLines *)
    eexists; split; [reflexivity|]. split; [|split; [apply Hid; auto|reflexivity]].
    unfold Sim; cbn. rewrite !app_nil_r. split; [|split; [|split]]; try assumption; try reflexivity.
  - (* SetName *)
    eexists; split; [reflexivity|]. split; [|split; [apply Hid; auto|reflexivity]].
    unfold Sim; cbn. rewrite !app_nil_r. split; [|split; [|split]]; try assumption; try reflexivity.
  - (* Invalidate *)
    eexists; split; [reflexivity|]. split; [|split; [apply Hid; auto|reflexivity]].
    unfold Sim; cbn. rewrite !app_nil_r. split; [|split; [|split]]; try assumption; try reflexivity.
Qed.
