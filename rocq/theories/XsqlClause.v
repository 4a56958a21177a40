(** Proofs about Clause: the layout of XsqlClauseSpec is what is rendered. *)
From Verif Require Import GoBase GoBaseFacts XsqlModel XsqlSpec XsqlUserSpec XsqlProofs XsqlPg XsqlSim XsqlRender XsqlUser XsqlOrder XsqlClauseSpec.
From Coq Require Import ZifyBool ZifyNat Sorted.
Open Scope Z_scope.

Lemma follows_rank a b : follows a b = (rank b <? rank a).
Proof. destruct a, b; reflexivity. Qed.
Lemma clause_eqb_rank a b : clause_eqb a b = (rank a =? rank b).
Proof. destruct a, b; reflexivity. Qed.
Lemma rank_100 cl : exists z, rank cl = 100 * z.
Proof. exists (rank cl / 100). destruct cl; reflexivity. Qed.

Fixpoint placeA (cl : sql_clause) (l : list (slot * Z)) : list (slot * Z) :=
  match l with
  | [] => [(Std cl, rank cl)]
  | (Extra e a, p) :: r => (Extra e a, p) :: placeA cl r
  | (Std c, p) :: r => if clause_eqb cl c then l else if follows c cl then (Std cl, rank cl) :: l else (Std c, p) :: placeA cl r
  end.
Lemma placeA_fst cl l : map fst (placeA cl l) = place cl (map fst l).
Proof.
  induction l as [|[[c|e a] p] l IH]; cbn [placeA place map fst]; [reflexivity| |rewrite IH; reflexivity].
  destruct (clause_eqb cl c); [reflexivity|]. destruct (follows c cl); [reflexivity|]. cbn [map fst]. rewrite IH. reflexivity.
Qed.
Lemma placeA_snd cl l : StronglySorted Z.lt (map snd l) -> (forall c p, In (Std c, p) l -> p = rank c) ->
  (forall e a p, In (Extra e a, p) l -> p < rank cl \/ exists c, In (Std c, rank c) l /\ rank c < p /\ rank cl <= rank c) ->
  map snd (placeA cl l) = ins_pos (rank cl) (map snd l).
Proof.
  induction l as [|[s p] l IH]; intros HS HR HE; [reflexivity|]. cbn [map snd] in HS. inversion HS as [|? ? HS' HF]; subst. rewrite Forall_forall in HF.
  assert (HF' : forall s q, In (s, q) l -> p < q) by (intros s' q Hin; apply HF; apply in_map_iff; exists (s', q); auto).
  destruct s as [c|e a]; cbn [placeA map snd ins_pos].
  - pose proof (HR c p (or_introl eq_refl)). subst p. rewrite clause_eqb_rank, follows_rank.
    destruct (Z.ltb_spec (rank cl) (rank c)).
    + destruct (Z.eqb_spec (rank cl) (rank c)); [lia|]. reflexivity.
    + destruct (Z.eqb_spec (rank cl) (rank c)); [reflexivity|]. cbn [map snd]. f_equal. apply IH; [exact HS'|intros c' p' Hin; apply HR; right; exact Hin|].
      intros e a p Hin. destruct (HE e a p (or_intror Hin)) as [|(c' & [Hc|Hc] & H1 & H2)]; [left; assumption| |right; exists c'; auto].
      injection Hc as <- _. lia.
  - destruct (HE e a p (or_introl eq_refl)) as [Hp|(c' & [Hc|Hc] & H1 & _)]; [|discriminate|specialize (HF' _ _ Hc); lia].
    destruct (Z.ltb_spec (rank cl) p); [lia|]. destruct (Z.eqb_spec (rank cl) p); [lia|]. f_equal. apply IH; [exact HS'|intros c' p' Hin; apply HR; right; exact Hin|].
    intros e' a' p' Hin. destruct (HE e' a' p' (or_intror Hin)) as [|(c' & [Hc|Hc] & H2 & H3)]; [left; assumption|discriminate|right; exists c'; auto].
Qed.
Lemma placeA_in cl l s p : In (s, p) (placeA cl l) -> In (s, p) l \/ (s = Std cl /\ p = rank cl).
Proof.
  induction l as [|[[c|e a] q] l IH]; cbn [placeA].
  - intros [H|[]]. injection H as <- <-. auto.
  - destruct (clause_eqb cl c); [auto|]. destruct (follows c cl).
    + intros [H|H]; [injection H as <- <-; auto|auto].
    + intros [H|H]; [left; left; exact H|]. destruct (IH H); [left; right; assumption|auto].
  - intros [H|H]; [left; left; exact H|]. destruct (IH H); [left; right; assumption|auto].
Qed.
Lemma placeA_keeps cl l x : In x l -> In x (placeA cl l).
Proof.
  induction l as [|[[c|e a] q] l IH]; cbn [placeA]; [intros []| |].
  - destruct (clause_eqb cl c); [auto|]. destruct (follows c cl); [right; assumption|]. intros [H|H]; [left; exact H|right; auto].
  - intros [H|H]; [left; exact H|right; auto].
Qed.

(** The calls other than Clause. *)
Definition plain_part (cs : list bcall) : list bcall := filter (fun c => negb (own_clause c)) cs.
Lemma parts_plain cl cs : parts cl (plain_part cs) = parts cl cs.
Proof.
  unfold parts, plain_part. induction cs as [|c cs IH]; [reflexivity|]. cbn [filter flat_map].
  destruct c; cbn [own_clause negb flat_map]; rewrite IH; reflexivity.
Qed.
Lemma plain_dml upd cs : forallb (dml_or_clause upd) cs = true -> forallb (dml_call upd) (plain_part cs) = true.
Proof.
  unfold plain_part. induction cs as [|c cs IH]; [reflexivity|]. cbn [forallb filter]. intros H. apply andb_true_iff in H as [H1 H2].
  destruct c; cbn [own_clause negb] in *; cbn [forallb]; rewrite ?IH by exact H2; try exact (f_equal (fun x => x && true) H1 || H1);
    try (rewrite andb_true_r; exact H1); reflexivity.
Qed.
Definition owns (cs : list bcall) : Z := Z.of_nat (length (filter own_clause cs)).

Definition extra_write (nl : bool) (e : bytes) (a : list goany) (p : Z) : write :=
  mkWrite p ((if nl then [ch 10] else []) ++ e) [] a (B ", ").
Record lay_inv (nl upd : bool) (done : list bcall) (s : sstate) (L : list (slot * Z)) : Prop := mkLay {
  li_dml : dml_inv nl upd s;
  li_dest : s_dest s = [];
  li_pos : positions (s_hist s) = map snd L;
  li_fst : map fst L = layout done;
  li_std : forall c p, In (Std c, p) L -> p = rank c;
  li_at : forall cl, at_pos (rank cl) (s_hist s) = map (pwrite nl cl) (parts cl done);
  li_extra : forall e a p, In (Extra e a, p) L -> e <> [] /\ at_pos p (s_hist s) = [extra_write nl e a p];
  li_base : forall e a p, In (Extra e a, p) L -> exists b j, In (Std b, rank b) L /\ p = rank b + 10 * j /\ 1 <= j <= owns done;
  li_some : L <> [] }.

Lemma at_pos_app1 p h w : at_pos p (h ++ [w]) = at_pos p h ++ (if w_pos w =? p then [w] else []).
Proof. unfold at_pos. rewrite filter_app. cbn [filter]. destruct (w_pos w =? p); reflexivity. Qed.
Lemma not_rank b j cl : 1 <= j <= 9 -> rank b + 10 * j <> rank cl.
Proof. destruct (rank_100 b) as [x ->], (rank_100 cl) as [y ->]. lia. Qed.
Lemma parts_snoc cl cs c : parts cl (cs ++ [c]) = parts cl cs ++ parts cl [c].
Proof. unfold parts. rewrite flat_map_app. reflexivity. Qed.
Lemma owns_snoc cs c : owns (cs ++ [c]) = owns cs + (if own_clause c then 1 else 0).
Proof. unfold owns. rewrite filter_app, app_length. cbn [filter]. destruct (own_clause c); cbn [length]; lia. Qed.
Lemma layout_snoc cs c : layout (cs ++ [c]) = add_slot (layout cs) c.
Proof. unfold layout. rewrite fold_left_app. reflexivity. Qed.

Lemma lay_dml nl upd done s L c : lay_inv nl upd done s L -> own_clause c = false -> dml_call upd c = true -> owns done <= 9 ->
  exists L', lay_inv nl upd (done ++ [c]) (spec_call s c) L'.
Proof.
  intros I Ho Hc H9. destruct (dml_step _ _ _ _ (li_dml _ _ _ _ _ I) Hc) as [Es HI']. destruct (dml_emits _ _ _ _ (li_dml _ _ _ _ _ I) Hc) as [_ Hp].
  unfold pw in Es. destruct (part c) as [[[cl e] a]|] eqn:Ep; [|congruence]. clear Hp.
  assert (Hn : forall p e' a', In (Extra e' a', p) L -> p <> rank cl).
  { intros p e' a' Hin. destruct (li_base _ _ _ _ _ I _ _ _ Hin) as (b & j & _ & -> & Hj). apply not_rank. lia. }
  exists (placeA cl L). constructor.
  - exact HI'.
  - rewrite Es. cbn. apply (li_dest _ _ _ _ _ I).
  - rewrite Es. cbn [s_hist]. rewrite positions_snoc, (li_pos _ _ _ _ _ I). symmetry. apply placeA_snd.
    + rewrite <- (li_pos _ _ _ _ _ I). apply positions_sorted.
    + apply (li_std _ _ _ _ _ I).
    + intros e' a' p Hin. destruct (li_base _ _ _ _ _ I _ _ _ Hin) as (b & j & Hb & -> & Hj).
      destruct (Z_lt_le_dec (rank b) (rank cl)) as [Hlt|Hle]; [left|right; exists b; repeat split; [exact Hb|lia|exact Hle]].
      destruct (rank_100 b) as [x Ex], (rank_100 cl) as [y Ey]. lia.
  - rewrite placeA_fst, layout_snoc, (li_fst _ _ _ _ _ I). unfold add_slot. rewrite Ep. destruct c; try reflexivity. discriminate.
  - intros c' p Hin. apply placeA_in in Hin as [Hin|[E ->]]; [eapply li_std; eassumption|]. injection E as <-. reflexivity.
  - intros cl'. rewrite Es. cbn [s_hist]. rewrite at_pos_app1, (li_at _ _ _ _ _ I), parts_snoc, map_app. f_equal.
    unfold parts. cbn [flat_map]. rewrite Ep, app_nil_r, clause_eqb_rank. cbn [pwrite w_pos].
    destruct (Z.eqb_spec (rank cl) (rank cl')) as [E|E]; destruct (Z.eqb_spec (rank cl') (rank cl)) as [E'|E']; try congruence; [|reflexivity].
    apply rank_inj in E. subst. reflexivity.
  - intros e' a' p Hin. apply placeA_in in Hin as [Hin|[E _]]; [|discriminate]. destruct (li_extra _ _ _ _ _ I _ _ _ Hin) as [H1 H2]. split; [exact H1|].
    rewrite Es. cbn [s_hist]. rewrite at_pos_app1, H2. cbn [pwrite w_pos]. pose proof (Hn _ _ _ Hin). replace (rank cl =? p) with false by lia. reflexivity.
  - intros e' a' p Hin. apply placeA_in in Hin as [Hin|[E _]]; [|discriminate]. destruct (li_base _ _ _ _ _ I _ _ _ Hin) as (b & j & Hb & E & Hj).
    exists b, j. split; [apply placeA_keeps; exact Hb|]. split; [exact E|]. rewrite owns_snoc, Ho. lia.
  - destruct L as [|[[c'|e' a'] p'] L]; cbn [placeA]; try discriminate. destruct (clause_eqb cl c'); [discriminate|]. destruct (follows c' cl); discriminate.
Qed.

Lemma lay_own nl upd done s L e a : lay_inv nl upd done s L -> e <> [] -> owns done < 9 ->
  exists L', lay_inv nl upd (done ++ [CClause e a]) (spec_call s (CClause e a)) L' /\
  exists p, emits s (CClause e a) = [extra_write nl e a p] /\ at_pos p (s_hist s) = [].
Proof.
  intros I He H9. pose proof (li_some _ _ _ _ _ I) as Hne.
  destruct L as [|x L0] using rev_ind; [congruence|]. clear IHL0. destruct x as [sl pl]. rename L0 into L1. set (L := L1 ++ [(sl, pl)]) in *.
  assert (Em : max_pos (s_hist s) = Some pl).
  { unfold max_pos. rewrite (li_pos _ _ _ _ _ I). unfold L. rewrite map_app. cbn [map snd]. destruct (map snd L1 ++ [pl]) eqn:E; [destruct (map snd L1); discriminate|]. rewrite <- E, last_last. reflexivity. }
  assert (Hlt : forall p, In p (positions (s_hist s)) -> p < pl + 10) by (intros p Hp; pose proof (max_pos_spec _ _ Em p Hp); lia).
  destruct (li_dml _ _ _ _ _ I) as (I1 & I2 & I3).
  assert (Ee : emits s (CClause e a) = [extra_write nl e a (pl + 10)]).
  { cbn [emits]. rewrite Em. unfold extra_write, nlkw. apply is_empty_false in He. rewrite He, I1. reflexivity. }
  assert (Hfresh : at_pos (pl + 10) (s_hist s) = []).
  { destruct (at_pos (pl + 10) (s_hist s)) eqn:E; [reflexivity|]. assert (In (pl + 10) (positions (s_hist s))) as Hin by (apply positions_in; congruence). specialize (Hlt _ Hin). lia. }
  assert (Hb : exists b j, In (Std b, rank b) L /\ pl + 10 = rank b + 10 * j /\ 1 <= j <= owns done + 1).
  { assert (Hin : In (sl, pl) L) by (apply in_or_app; right; left; reflexivity). assert (Ho0 : 0 <= owns done) by (unfold owns; lia). destruct sl as [b|e' a'].
    - pose proof (li_std _ _ _ _ _ I _ _ Hin). subst pl. exists b, 1. repeat split; [exact Hin|lia|lia].
    - destruct (li_base _ _ _ _ _ I _ _ _ Hin) as (b & j & Hb & E & Hj). exists b, (j + 1). split; [exact Hb|]. lia. }
  assert (Hnr : forall cl, pl + 10 <> rank cl) by (intros cl; destruct Hb as (b & j & _ & -> & Hj); apply not_rank; lia).
  exists (L ++ [(Extra e a, pl + 10)]). split; [|exists (pl + 10); auto]. unfold spec_call. rewrite Ee. constructor.
  - split; [exact I1|]. cbn [s_hist]. rewrite !has_pos_app, I2. split.
    + unfold has_pos, at_pos. cbn [filter extra_write w_pos]. destruct Hb as (b & j & _ & E & Hj). rewrite E.
      destruct (rank_100 b) as [x Ex]. rewrite Ex. replace (100 * x + 10 * j =? 300) with false by lia. reflexivity.
    + intros Hu. rewrite (I3 Hu). reflexivity.
  - cbn. rewrite app_nil_r. apply (li_dest _ _ _ _ _ I).
  - cbn [s_hist]. rewrite positions_snoc, (li_pos _ _ _ _ _ I), map_app. cbn [extra_write w_pos map snd].
    rewrite (li_pos _ _ _ _ _ I) in Hlt. revert Hlt. induction (map snd L) as [|q ps IH]; intros Hlt; [reflexivity|]. cbn [ins_pos app].
    pose proof (Hlt q (or_introl eq_refl)). replace (pl + 10 <? q) with false by lia. replace (pl + 10 =? q) with false by lia.
    rewrite IH; [reflexivity|]. intros p Hp. apply Hlt. right. exact Hp.
  - rewrite map_app, (li_fst _ _ _ _ _ I), layout_snoc. reflexivity.
  - intros c p Hin. apply in_app_or in Hin as [Hin|[Hin|[]]]; [eapply li_std; eassumption|discriminate].
  - intros cl. cbn [s_hist]. rewrite at_pos_app1, (li_at _ _ _ _ _ I), parts_snoc. cbn [extra_write w_pos].
    pose proof (Hnr cl). replace (pl + 10 =? rank cl) with false by lia. cbn. rewrite !app_nil_r. reflexivity.
  - intros e' a' p Hin. cbn [s_hist]. rewrite at_pos_app1. cbn [extra_write w_pos]. apply in_app_or in Hin as [Hin|[Hin|[]]].
    + destruct (li_extra _ _ _ _ _ I _ _ _ Hin) as [H1 H2]. split; [exact H1|]. rewrite H2.
      assert (Hp : In p (positions (s_hist s))) by (apply positions_in; rewrite H2; discriminate). specialize (Hlt _ Hp).
      replace (pl + 10 =? p) with false by lia. reflexivity.
    + injection Hin as <- <- <-. split; [exact He|]. rewrite Hfresh, Z.eqb_refl. reflexivity.
  - intros e' a' p Hin. rewrite owns_snoc. cbn [own_clause]. apply in_app_or in Hin as [Hin|[Hin|[]]].
    + destruct (li_base _ _ _ _ _ I _ _ _ Hin) as (b & j & Hb' & E & Hj). exists b, j. split; [apply in_or_app; left; exact Hb'|]. lia.
    + injection Hin as _ _ <-. destruct Hb as (b & j & Hb' & E & Hj). exists b, j. split; [apply in_or_app; left; exact Hb'|]. lia.
  - intros E. apply app_eq_nil in E as [_ E]. discriminate.
Qed.

Lemma ok_write_at h h' w : at_pos (w_pos w) h = at_pos (w_pos w) h' -> ok_write h w = ok_write h' w.
Proof. intros E. unfold ok_write. rewrite E. reflexivity. Qed.
Lemma pw_goods nl upd cs : forallb (dml_call upd) cs = true -> forallb good (flat_map (pw nl) cs) = true.
Proof.
  induction cs as [|c cs IH]; [reflexivity|]. cbn [forallb flat_map]. intros H. apply andb_true_iff in H as [H1 H2].
  rewrite forallb_app, (pw_good nl upd c H1), IH by exact H2. reflexivity.
Qed.

Lemma lay_calls nl upd cs : forall done s L, lay_inv nl upd done s L -> forallb (dml_or_clause upd) (done ++ cs) = true -> owns (done ++ cs) <= 9 ->
  ok_calls s cs = true /\ exists L', lay_inv nl upd (done ++ cs) (spec_calls s cs) L'.
Proof.
  induction cs as [|c cs IH]; intros done s L I Hc H9; [rewrite app_nil_r in *; split; [reflexivity|exists L; exact I]|].
  assert (E : done ++ c :: cs = (done ++ [c]) ++ cs) by (rewrite <- app_assoc; reflexivity).
  rewrite E in *. pose proof Hc as Hc'. rewrite forallb_app in Hc. apply andb_true_iff in Hc as [Hc _]. rewrite forallb_app in Hc. apply andb_true_iff in Hc as [Hd Hc].
  cbn [forallb] in Hc. rewrite andb_true_r in Hc.
  assert (H9' : owns (done ++ [c]) <= 9) by (unfold owns in *; rewrite filter_app, app_length in H9; lia). rewrite owns_snoc in H9'.
  cbn [ok_calls spec_calls fold_left]. change (fold_left spec_call cs (spec_call s c)) with (spec_calls (spec_call s c) cs).
  destruct (own_clause c) eqn:Eo.
  - destruct c; try discriminate. cbn [dml_or_clause] in Hc. apply negb_true_iff, is_empty_false in Hc.
    destruct (lay_own _ _ _ _ _ e a I Hc ltac:(lia)) as (L' & I' & p & Ee & Ef).
    destruct (IH _ _ _ I' Hc' H9) as [O1 O2]. split; [|exact O2]. rewrite O1, andb_true_r. unfold ok_call. rewrite Ee. cbn [ok_writes]. rewrite !andb_true_r.
    unfold ok_write. cbn [extra_write w_pos w_args w_expr]. rewrite Ef, orb_true_r. reflexivity.
  - assert (Hc2 : dml_call upd c = true) by (destruct c; try exact Hc; discriminate).
    destruct (lay_dml _ _ _ _ _ c I Eo Hc2 ltac:(lia)) as (L' & I').
    destruct (IH _ _ _ I' Hc' H9) as [O1 O2]. split; [|exact O2]. rewrite O1, andb_true_r. unfold ok_call.
    replace (match c with CSubQuery p _ _ _ => negb (is_empty p) | _ => true end) with true by (destruct c; try reflexivity; discriminate). rewrite andb_true_r.
    destruct (dml_emits _ _ _ _ (li_dml _ _ _ _ _ I) Hc2) as [-> Hp]. pose proof (pw_good nl upd c Hc2) as G. unfold pw in *.
    destruct (part c) as [[[cl e] a]|]; [|congruence]. cbn [ok_writes forallb] in *. rewrite andb_true_r in *.
    rewrite (ok_write_at _ (flat_map (pw nl) (plain_part done))).
    + apply good_ok; [eapply pw_goods, plain_dml; exact Hd|exact G].
    + cbn [pwrite w_pos]. rewrite (li_at _ _ _ _ _ I), at_pos_flat, parts_plain. reflexivity.
Qed.

Lemma lay_observe r did d k c0 cs : clean r -> d_cache d = [] -> start_call k = Some c0 ->
  forallb (dml_or_clause (is_update k)) (c0 :: cs) = true -> owns cs <= 9 -> renderable d k cs = true ->
  observe r did d k cs = Some (numbered d (laid_sql (d_nl d) (c0 :: cs)), laid_args (c0 :: cs), []).
Proof.
  intros HC Hd Hs Hc H9 Hr. set (nl := d_nl d).
  assert (Ho0 : own_clause c0 = false) by (destruct k; cbn in Hs; try discriminate; injection Hs as <-; reflexivity).
  pose proof Hc as Hc0. cbn [forallb] in Hc0. apply andb_true_iff in Hc0 as [H0 _].
  assert (H0' : dml_call (is_update k) c0 = true) by (destruct c0; try exact H0; discriminate).
  destruct (start_spec nl k c0 Hs) as [E1 E2].
  assert (I0 : exists L, lay_inv nl (is_update k) [c0] (spec_call (init_state nl) c0) L).
  { pose proof (dml_init nl k c0 Hs H0') as HI.
    assert (P : exists cl e a, part c0 = Some (cl, e, a)) by (destruct k; cbn in Hs; try discriminate; injection Hs as <-; cbn; eauto).
    destruct P as (cl & e & a & P). unfold pw in E2. rewrite P in E2. exists [(Std cl, rank cl)]. constructor.
    - exact HI.
    - destruct k; cbn in Hs; try discriminate; injection Hs as <-; reflexivity.
    - rewrite E2. reflexivity.
    - unfold layout. cbn [fold_left]. unfold add_slot. rewrite P. destruct c0; try reflexivity. discriminate.
    - intros c p [H|[]]. injection H as <- <-. reflexivity.
    - intros cl'. rewrite E2. unfold parts. cbn [flat_map]. rewrite P, app_nil_r, clause_eqb_rank. unfold at_pos. cbn [filter pwrite w_pos].
      destruct (Z.eqb_spec (rank cl) (rank cl')) as [E|E]; destruct (Z.eqb_spec (rank cl') (rank cl)) as [E'|E']; try congruence; [|reflexivity].
      apply rank_inj in E. subst. reflexivity.
    - intros e' a' p [H|[]]. discriminate.
    - intros e' a' p [H|[]]. discriminate.
    - discriminate. }
  destruct I0 as [L0 I0].
  assert (Ho : owns ([c0] ++ cs) <= 9) by (unfold owns in *; cbn [app filter]; rewrite Ho0; exact H9).
  destruct (lay_calls nl (is_update k) cs [c0] _ L0 I0 Hc Ho) as [O1 (L & I)]. cbn [app] in I.
  assert (OB : ok_build nl k cs = true) by (unfold ok_build; rewrite (start_ok k c0 Hs H0'), E1; exact O1).
  rewrite (observe_hist r did d k cs HC Hd OB Hr). unfold shown_hist, spec_build. fold nl. rewrite E1.
  set (s := spec_calls (spec_call (init_state nl) c0) cs) in *. rewrite (li_dest _ _ _ _ _ I).
  pose proof (plain_dml _ _ Hc) as Hpl.
  f_equal. f_equal. f_equal.
  - f_equal. unfold spec_sql, laid_sql. f_equal. unfold spec_text. f_equal. rewrite <- (li_fst _ _ _ _ _ I).
    rewrite (li_pos _ _ _ _ _ I), map_map.
    assert (HL : forall x, In x L -> slot_text nl (c0 :: cs) (fst x) = [clause_text (at_pos (snd x) (s_hist s))]).
    { intros [[cl|e a] p] Hin; cbn [fst snd slot_text].
      - pose proof (li_std _ _ _ _ _ I _ _ Hin). subst p. pose proof (u_text nl _ cl _ Hpl) as U. rewrite at_pos_flat, parts_plain, <- (li_at _ _ _ _ _ I) in U.
        assert (Hp : has_pos (rank cl) (flat_map (pw nl) (plain_part (c0 :: cs))) = true).
        { unfold has_pos. rewrite at_pos_flat, parts_plain, <- (li_at _ _ _ _ _ I). assert (N : In (rank cl) (positions (s_hist s))) by (rewrite (li_pos _ _ _ _ _ I); apply in_map_iff; exists (Std cl, rank cl); auto).
          apply positions_in in N. destruct (at_pos (rank cl) (s_hist s)); [congruence|reflexivity]. }
        rewrite Hp in U. rewrite U. unfold u_clause_text. rewrite parts_plain. reflexivity.
      - destruct (li_extra _ _ _ _ _ I _ _ _ Hin) as [_ ->]. unfold clause_text, first_text, extra_write. cbn [w_kw w_expr is_empty more_text].
        rewrite orb_true_r. cbn [app]. rewrite app_nil_r. cbn [more_text negb]. rewrite app_nil_r. reflexivity. }
    clear -HL. induction L as [|x L IH]; [reflexivity|]. cbn [map flat_map]. rewrite (HL x (or_introl eq_refl)). cbn [app]. f_equal. apply IH. intros y Hy. apply HL. right. exact Hy.
  - unfold spec_args, laid_args. rewrite <- (li_fst _ _ _ _ _ I). rewrite (li_pos _ _ _ _ _ I), map_map.
    assert (HL : forall x, In x L -> slot_args (c0 :: cs) (fst x) = clause_args (at_pos (snd x) (s_hist s))).
    { intros [[cl|e a] p] Hin; cbn [fst snd slot_args].
      - pose proof (li_std _ _ _ _ _ I _ _ Hin). subst p. pose proof (u_args nl _ cl _ Hpl) as U. rewrite at_pos_flat, parts_plain, <- (li_at _ _ _ _ _ I) in U.
        rewrite U. unfold u_clause_args. rewrite parts_plain. reflexivity.
      - destruct (li_extra _ _ _ _ _ I _ _ _ Hin) as [_ ->]. reflexivity. }
    clear -HL. induction L as [|x L IH]; [reflexivity|]. cbn [map flat_map concat]. rewrite (HL x (or_introl eq_refl)). f_equal. apply IH. intros y Hy. apply HL. right. exact Hy.
Qed.

(** ** What the layout means *)
Inductive sublist {X} : list X -> list X -> Prop :=
| sub_nil : sublist [] []
| sub_skip x l m : sublist l m -> sublist l (x :: m)
| sub_take x l m : sublist l m -> sublist (x :: l) (x :: m).
Lemma sub_refl {X} (l : list X) : sublist l l.
Proof. induction l; constructor; assumption. Qed.
Lemma sub_trans {X} (a b c : list X) : sublist a b -> sublist b c -> sublist a c.
Proof.
  intros H1 H2. revert a H1. induction H2 as [|x l m H2 IH|x l m H2 IH]; intros a H1; [exact H1|constructor; auto|].
  inversion H1; subst; [apply sub_skip; apply IH; assumption|apply sub_take; apply IH; assumption].
Qed.
Lemma place_sub cl l : sublist l (place cl l).
Proof.
  induction l as [|[c|e a] l IH]; cbn [place]; [repeat constructor| |apply sub_take; exact IH].
  destruct (clause_eqb cl c); [apply sub_refl|]. destruct (follows c cl); [apply sub_skip; apply sub_refl|apply sub_take; exact IH].
Qed.
Lemma place_split cl l1 e a l2 : (exists l1', place cl (l1 ++ Extra e a :: l2) = l1' ++ Extra e a :: l2 /\ sublist l1 l1') \/
  (exists l2', place cl (l1 ++ Extra e a :: l2) = l1 ++ Extra e a :: l2' /\ sublist l2 l2').
Proof.
  induction l1 as [|[c|e' a'] l1 IH]; cbn [app place].
  - right. exists (place cl l2). split; [reflexivity|apply place_sub].
  - destruct (clause_eqb cl c); [right; exists l2; split; [reflexivity|apply sub_refl]|].
    destruct (follows c cl).
    + left. exists (Std cl :: Std c :: l1). split; [reflexivity|]. apply sub_skip, sub_refl.
    + destruct IH as [(l1' & -> & S)|(l2' & -> & S)]; [left; exists (Std c :: l1'); split; [reflexivity|apply sub_take; exact S]|right; exists l2'; auto].
  - destruct IH as [(l1' & -> & S)|(l2' & -> & S)]; [left; exists (Extra e' a' :: l1'); split; [reflexivity|apply sub_take; exact S]|right; exists l2'; auto].
Qed.
Lemma layout_after cs1 e a cs2 : exists l1 l2, layout (cs1 ++ CClause e a :: cs2) = l1 ++ Extra e a :: l2 /\ sublist (layout cs1) l1.
Proof.
  unfold layout. rewrite fold_left_app. cbn [fold_left add_slot]. set (l0 := fold_left add_slot cs1 []).
  assert (G : forall cs l1 l2, sublist l0 l1 -> exists l1' l2', fold_left add_slot cs (l1 ++ Extra e a :: l2) = l1' ++ Extra e a :: l2' /\ sublist l0 l1').
  { induction cs as [|c cs IH]; intros l1 l2 S; [exists l1, l2; split; [reflexivity|exact S]|]. cbn [fold_left].
    assert (Q : (exists l2', add_slot (l1 ++ Extra e a :: l2) c = l1 ++ Extra e a :: l2') \/ (exists l1', add_slot (l1 ++ Extra e a :: l2) c = l1' ++ Extra e a :: l2 /\ sublist l1 l1')).
    { assert (D : forall cl, (exists l2', place cl (l1 ++ Extra e a :: l2) = l1 ++ Extra e a :: l2') \/ (exists l1', place cl (l1 ++ Extra e a :: l2) = l1' ++ Extra e a :: l2 /\ sublist l1 l1')).
      { intros cl. destruct (place_split cl l1 e a l2) as [(l' & E & S')|(l' & E & _)]; [right|left]; exists l'; auto. }
      unfold add_slot. destruct (part c) as [[[cl ?] ?]|] eqn:Ep.
      - destruct c; try (apply D). discriminate.
      - destruct c; try (left; exists l2; reflexivity). left. exists (l2 ++ [Extra e0 a0]). rewrite <- app_assoc. reflexivity. }
    destruct Q as [(l2' & ->)|(l1' & -> & S')]; apply IH; [exact S|]. eapply sub_trans; eassumption. }
  apply (G cs2 l0 []). apply sub_refl.
Qed.
Definition stds (l : list slot) : list sql_clause := flat_map (fun s => match s with Std cl => [cl] | Extra _ _ => [] end) l.
Lemma place_stds cl l x : In x (stds (place cl l)) -> x = cl \/ In x (stds l).
Proof.
  induction l as [|[c|e a] l IH]; cbn [place].
  - intros [H|[]]; auto.
  - destruct (clause_eqb cl c); [auto|]. destruct (follows c cl); cbn [stds flat_map app]; intros [H|H]; auto.
    + right. left. exact H.
    + destruct (IH H); [auto|]. right. right. assumption.
  - cbn [stds flat_map app]. exact IH.
Qed.
Lemma place_order cl l : StronglySorted (fun a b => follows b a = true) (stds l) -> StronglySorted (fun a b => follows b a = true) (stds (place cl l)).
Proof.
  induction l as [|[c|e a] l IH]; cbn [place]; [repeat constructor| |cbn [stds flat_map app]; exact IH].
  cbn [stds flat_map app]. fold (stds l). intros H. inversion H as [|? ? HS HF]; subst.
  destruct (clause_eqb cl c) eqn:Ee; [exact H|]. destruct (follows c cl) eqn:Ef.
  - cbn [stds flat_map app]. constructor; [exact H|]. constructor; [exact Ef|]. rewrite Forall_forall in *. intros x Hx. specialize (HF x Hx).
    rewrite follows_rank in *. lia.
  - cbn [stds flat_map app]. fold (stds (place cl l)). constructor; [apply IH; exact HS|]. rewrite Forall_forall in *. intros x Hx. apply place_stds in Hx as [->|Hx]; [|apply HF; exact Hx].
    rewrite clause_eqb_rank in Ee. rewrite follows_rank in *. lia.
Qed.
Lemma layout_order cs : StronglySorted (fun a b => follows b a = true) (stds (layout cs)).
Proof.
  induction cs as [|c cs IH] using rev_ind; [constructor|]. rewrite layout_snoc. unfold add_slot.
  assert (D : forall x, match part c with Some (cl, _, _) => place cl (layout cs) | None => layout cs end = x -> StronglySorted (fun a b => follows b a = true) (stds x)).
  { intros x <-. destruct (part c) as [[[cl ?] ?]|]; [apply place_order|]; exact IH. }
  destruct c; try (apply D; reflexivity). unfold stds. rewrite flat_map_app. cbn [flat_map app]. rewrite app_nil_r. exact IH.
Qed.
