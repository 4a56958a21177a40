(** User-level consequences: canonical DML text, interleaving, LIMIT/OFFSET. *)
From Verif Require Import GoBase GoBaseFacts XsqlModel XsqlSpec XsqlUserSpec XsqlProofs XsqlPg XsqlSim XsqlRender.
From Coq Require Import ZifyBool ZifyNat Sorted.
Open Scope Z_scope.

(** ** When argument-carrying writes are always accepted *)
Definition good (w : write) : bool :=
  if (w_pos w =? 1700) || (w_pos w =? 1800)
  then is_empty (w_expr w) && (length (w_args w) =? 1)%nat
  else is_empty (w_args w) || negb (is_empty (w_expr w)).

Lemma good_ok h w : forallb good h = true -> good w = true -> ok_write h w = true.
Proof.
  intros Hh Hw. unfold good in Hw. unfold ok_write.
  destruct ((w_pos w =? 1700) || (w_pos w =? 1800)) eqn:Ep.
  - apply andb_true_iff in Hw as [H1 H2]. apply Nat.eqb_eq in H2. rewrite H2.
    assert (G : Forall (fun x => is_empty (w_expr x) = true /\ length (w_args x) = 1%nat) (at_pos (w_pos w) h)).
    { apply Forall_forall. intros x Hx. unfold at_pos in Hx. apply filter_In in Hx as [Hx Ex].
      rewrite forallb_forall in Hh. specialize (Hh _ Hx). unfold good in Hh. apply Z.eqb_eq in Ex. rewrite Ex, Ep in Hh.
      apply andb_true_iff in Hh as [A1 A2]. apply Nat.eqb_eq in A2. auto. }
    destruct (at_pos (w_pos w) h) as [|w0 r]; [rewrite !orb_true_r; reflexivity|].
    replace (forallb (fun x => is_empty (w_expr x)) (w0 :: r)) with true.
    2: { symmetry. apply forallb_forall. intros x Hx. rewrite Forall_forall in G. apply G; exact Hx. }
    inversion G as [|? ? [_ G1] _]; subst. rewrite G1. rewrite !orb_true_r. reflexivity.
  - apply orb_true_iff in Hw as [->| ->]; [reflexivity|rewrite orb_true_r; reflexivity].
Qed.

Lemma good_oks ws : forall h, forallb good h = true -> forallb good ws = true -> ok_writes h ws = true.
Proof.
  induction ws as [|w ws IH]; intros h Hh Hw; [reflexivity|]. cbn [forallb] in Hw.
  apply andb_true_iff in Hw as [H1 H2]. cbn [ok_writes]. rewrite good_ok by assumption. cbn [andb].
  apply IH; [|exact H2]. rewrite forallb_app, Hh. cbn [forallb]. rewrite H1. reflexivity.
Qed.

Definition not_sub (c : bcall) : bool := match c with CSubQuery _ _ _ _ => false | _ => true end.

Lemma good_calls (I : sstate -> Prop) cs :
  (forall s c, I s -> In c cs -> forallb good (emits s c) = true /\ not_sub c = true /\ I (spec_call s c)) ->
  forall s, I s -> forallb good (s_hist s) = true ->
  ok_calls s cs = true /\ I (spec_calls s cs).
Proof.
  induction cs as [|c cs IH]; intros Hc s Hs Hg; [split; [reflexivity|exact Hs]|].
  destruct (Hc s c Hs (or_introl eq_refl)) as (G1 & G2 & G3).
  cbn [ok_calls]. unfold ok_call. rewrite good_oks by assumption.
  replace (match c with CSubQuery p _ _ _ => negb (is_empty p) | _ => true end) with true
    by (destruct c; try reflexivity; discriminate).
  cbn [andb]. apply IH.
  - intros s' c' Hs' Hin. apply Hc; [exact Hs'|right; exact Hin].
  - exact G3.
  - unfold spec_call; cbn [s_hist]. rewrite forallb_app, Hg, G1. reflexivity.
Qed.

(** The calls for which Args() order is unconditional. *)
Definition arg_ok (e : bytes) (a : list goany) : bool := is_empty a || negb (is_empty e).
Definition standard (c : bcall) : bool :=
  match c with
  | CSelect e a | CFrom e a | CWhere e a | CHaving e a | CSetExpr _ e a => arg_ok e a
  | CNewRow sets => forallb (fun x => arg_ok (snd (fst x)) (snd x)) sets
  | CExpr _ _ | CSubQuery _ _ _ _ | CClause _ _ | CUnion _ _ _ => false
  | _ => true
  end.

Lemma row_writes_good first sets : forallb (fun x => arg_ok (snd (fst x)) (snd x)) sets = true ->
  forall ne, forallb good (row_writes first ne sets) = true.
Proof.
  induction sets as [|[[f e] a] sets IH]; intros H ne; [reflexivity|].
  cbn [forallb fst snd] in H. apply andb_true_iff in H as [H1 H2].
  cbn [row_writes]. fold (row_writes first). rewrite forallb_app, IH by exact H2. rewrite andb_true_r.
  unfold arg_ok in H1. destruct first; cbn; rewrite H1; reflexivity.
Qed.

Lemma standard_good s c : standard c = true -> forallb good (emits s c) = true.
Proof.
  intros H. destruct c; cbn [standard] in H; try discriminate; unfold arg_ok in *;
    try (cbn; rewrite ?H; reflexivity).
  - unfold emits. destruct (has_pos 300 _); [reflexivity|]. destruct (has_pos 700 _); [|reflexivity].
    unfold good; cbn. destruct f; reflexivity.
  - unfold emits. destruct (has_pos 300 _); [cbn; rewrite H; reflexivity|]. destruct (has_pos 700 _); [|reflexivity].
    unfold good; cbn. rewrite andb_true_r. destruct f; cbn; rewrite ?orb_true_r; reflexivity.
  - unfold emits, good; cbn. rewrite orb_true_r. reflexivity.
  - unfold emits. destruct (1 <? page); reflexivity.
  - unfold emits, good; cbn. rewrite andb_true_r.
    destruct name; cbn; rewrite ?orb_true_r; reflexivity.
  - unfold emits. destruct (has_pos 500 _).
    + cbn [forallb]. rewrite row_writes_good by exact H. reflexivity.
    + apply row_writes_good; exact H.
  - unfold emits. induction (flat_map bind_leaves fs) as [|x l IH]; [reflexivity|]. cbn [map forallb]. rewrite IH. reflexivity.
Qed.

Lemma spec_ctor_good nl k : (match k with KNew v a => is_empty a | _ => true end) = true ->
  ok_ctor k = true -> forallb good (s_hist (spec_ctor (init_state nl) k)) = true.
Proof.
  intros Hn Hk. destruct k; cbn [ok_ctor] in *; cbn; rewrite ?Hk, ?Hn; try reflexivity.
  destruct name; cbn; unfold good; cbn; rewrite ?orb_true_r; reflexivity.
Qed.

(** New(verb, args...) puts its arguments next to the keyword: fine as long as
    the clause is not reopened with a keyword only, which no call does. *)
Lemma standard_ok nl k cs : ok_ctor k = true -> forallb standard cs = true -> ok_build nl k cs = true.
Proof.
  intros Hk Hc. unfold ok_build. rewrite Hk. cbn [andb].
  destruct (match k with KNew v a => is_empty a | _ => true end) eqn:Hn.
  - apply (good_calls (fun _ => True)); [|exact I|apply spec_ctor_good; assumption].
    intros s c _ Hin. rewrite forallb_forall in Hc. specialize (Hc _ Hin).
    split; [apply standard_good; exact Hc|]. split; [|exact I]. destruct c; try reflexivity; discriminate.
  - destruct k as [v a| | | | | |]; try discriminate. clear Hk Hn.
    assert (G : forall cs s w0 h', s_hist s = w0 :: h' -> w_pos w0 = 900 -> forallb good h' = true ->
              forallb standard cs = true -> ok_calls s cs = true).
    { clear cs Hc. induction cs as [|c cs IH]; intros s w0 h' Es Hw Hg Hc; [reflexivity|].
      cbn [forallb] in Hc. apply andb_true_iff in Hc as [Hc1 Hc2].
      pose proof (standard_good s c Hc1) as HG.
      cbn [ok_calls]. apply andb_true_iff; split.
      - unfold ok_call. apply andb_true_iff; split; [|destruct c; try reflexivity; discriminate].
        rewrite Es. clear -Hw Hg HG. revert h' Hg HG. induction (emits s c) as [|w ws IH]; intros h' Hg HG; [reflexivity|].
        cbn [forallb] in HG. apply andb_true_iff in HG as [H1 H2]. cbn [ok_writes]. apply andb_true_iff; split.
        + pose proof (good_ok h' w Hg H1) as HO. unfold ok_write in *.
          destruct (is_empty (w_args w) || negb (is_empty (w_expr w))) eqn:E; [reflexivity|]. cbn [orb] in *.
          assert (En : at_pos (w_pos w) (w0 :: h') = at_pos (w_pos w) h').
          { unfold at_pos. cbn [filter]. unfold good in H1.
            destruct ((w_pos w =? 1700) || (w_pos w =? 1800)) eqn:Ep; [|congruence].
            destruct (Z.eqb_spec (w_pos w0) (w_pos w)); [|reflexivity]. lia. }
          rewrite En. exact HO.
        + change ((w0 :: h') ++ [w]) with (w0 :: (h' ++ [w])). apply IH; [|exact H2].
          rewrite forallb_app, Hg. cbn [forallb]. rewrite H1. reflexivity.
      - eapply (IH _ w0 (h' ++ emits s c)); [unfold spec_call; cbn [s_hist]; rewrite Es; reflexivity|exact Hw| |exact Hc2].
        rewrite forallb_app, Hg, HG. reflexivity. }
    eapply G; [reflexivity|reflexivity|reflexivity|exact Hc].
Qed.

(** ** Equal per-clause histories give equal statements *)
Lemma sorted_ext l : forall l', StronglySorted Z.lt l -> StronglySorted Z.lt l' ->
  (forall x, In x l <-> In x l') -> l = l'.
Proof.
  induction l as [|a l IH]; intros [|b l'] H1 H2 HE.
  - reflexivity.
  - exfalso. apply (HE b). left; reflexivity.
  - exfalso. apply (HE a). left; reflexivity.
  - inversion H1 as [|? ? S1 F1]; inversion H2 as [|? ? S2 F2]; subst. rewrite Forall_forall in F1, F2.
    assert (a = b) as ->.
    { destruct (proj1 (HE a) (or_introl eq_refl)) as [E|E]; [symmetry; exact E|].
      destruct (proj2 (HE b) (or_introl eq_refl)) as [E'|E']; [exact E'|].
      specialize (F1 _ E'). specialize (F2 _ E). lia. }
    f_equal. apply IH; try assumption. intros x. split; intros Hx.
    + destruct (proj1 (HE x) (or_intror Hx)) as [E|E]; [|exact E]. specialize (F1 _ Hx). lia.
    + destruct (proj2 (HE x) (or_intror Hx)) as [E|E]; [|exact E]. specialize (F2 _ Hx). lia.
Qed.

Lemma at_pos_ext h h' : (forall p, at_pos p h = at_pos p h') ->
  positions h = positions h' /\ spec_text h = spec_text h' /\ spec_args h = spec_args h'.
Proof.
  intros H. assert (E : positions h = positions h').
  { apply sorted_ext; try apply positions_sorted. intros p. rewrite !positions_in, H. reflexivity. }
  split; [exact E|]. unfold spec_text, spec_args. rewrite E. split.
  - f_equal. apply map_ext. intros p. rewrite H. reflexivity.
  - f_equal. apply map_ext. intros p. rewrite H. reflexivity.
Qed.

Lemma filter_sorted {f : Z -> bool} l : StronglySorted Z.lt l -> StronglySorted Z.lt (filter f l).
Proof.
  induction 1 as [|a l H IH F]; [constructor|]. cbn [filter]. destruct (f a); [|exact IH].
  constructor; [exact IH|]. rewrite Forall_forall in *. intros x Hx. apply filter_In in Hx as [Hx _]. auto.
Qed.

Lemma positions_filter R h : StronglySorted Z.lt R -> Forall (fun w => In (w_pos w) R) h ->
  positions h = filter (fun p => has_pos p h) R.
Proof.
  intros HR HF. apply sorted_ext; [apply positions_sorted|apply filter_sorted; exact HR|].
  intros p. rewrite filter_In, has_pos_in. split; [|tauto]. intros Hp. split; [|exact Hp].
  apply positions_in in Hp. destruct (at_pos p h) as [|w r] eqn:E; [congruence|].
  assert (Hw : In w (at_pos p h)) by (rewrite E; left; reflexivity).
  unfold at_pos in Hw. apply filter_In in Hw as [Hw Ew]. apply Z.eqb_eq in Ew. subst p.
  rewrite Forall_forall in HF. auto.
Qed.

(** ** DML statements *)
Definition rank (cl : sql_clause) : Z :=
  match cl with
  | ClDelete => 600 | ClUpdate => 700 | ClSet => 800 | ClSelect => 900 | ClFrom => 1100 | ClWhere => 1200
  | ClGroupBy => 1300 | ClHaving => 1400 | ClOrderBy => 1600 | ClLimit => 1700 | ClOffset => 1800 | ClReturning => 1900
  end.
Definition wsep (cl : sql_clause) : bytes := match cl with ClLimit | ClOffset => [] | _ => separator cl end.
Definition kwnl (nl : bool) (cl : sql_clause) : bytes := (if nl then [ch 10] else []) ++ keyword cl.
Definition pwrite (nl : bool) (cl : sql_clause) (x : bytes * list goany) : write :=
  mkWrite (rank cl) (kwnl nl cl) (fst x) (snd x) (wsep cl).
Definition pw (nl : bool) (c : bcall) : list write :=
  match part c with Some (cl, e, a) => [pwrite nl cl (e, a)] | None => [] end.

Definition dml_inv (nl upd : bool) (s : sstate) : Prop :=
  s_nl s = nl /\ has_pos 300 (s_hist s) = false /\ (upd = true -> has_pos 700 (s_hist s) = true).

Lemma has_pos_app p h h' : has_pos p (h ++ h') = has_pos p h || has_pos p h'.
Proof.
  unfold has_pos, at_pos. rewrite filter_app. destruct (filter _ h); [reflexivity|]. reflexivity.
Qed.

Lemma dml_emits nl upd s c : dml_inv nl upd s -> dml_call upd c = true ->
  emits s c = pw nl c /\ part c <> None.
Proof.
  intros (H1 & H2 & H3) Hc. unfold pw.
  destruct c; cbn [dml_call] in Hc; try discriminate; cbn [part emits pwrite]; (split; [|discriminate]);
    unfold pwrite, kwnl, nlkw; cbn [is_empty keyword rank wsep separator fst snd]; rewrite ?H1; try reflexivity.
  - subst upd. rewrite H2, (H3 eq_refl). reflexivity.
  - subst upd. rewrite H2, (H3 eq_refl). reflexivity.
Qed.

Lemma dml_step nl upd s c : dml_inv nl upd s -> dml_call upd c = true ->
  spec_call s c = mkS (s_hist s ++ pw nl c) (cur_after s c) nl (s_dest s) /\ dml_inv nl upd (spec_call s c).
Proof.
  intros HI Hc. destruct (dml_emits _ _ _ _ HI Hc) as [E _]. destruct HI as (H1 & H2 & H3).
  assert (Es : spec_call s c = mkS (s_hist s ++ pw nl c) (cur_after s c) nl (s_dest s)).
  { unfold spec_call. rewrite E. f_equal; [destruct c; try exact H1; discriminate|].
    destruct c; try (cbn; apply app_nil_r); discriminate. }
  split; [exact Es|]. rewrite Es. split; [reflexivity|]. cbn [s_hist]. rewrite !has_pos_app, H2. cbn [orb]. split.
  - unfold pw. destruct (part c) as [[[cl e] a]|]; [|reflexivity]. destruct cl; reflexivity.
  - intros Hu. rewrite (H3 Hu). reflexivity.
Qed.

Lemma dml_hist nl upd cs : forall s, dml_inv nl upd s -> forallb (dml_call upd) cs = true ->
  s_hist (spec_calls s cs) = s_hist s ++ flat_map (pw nl) cs.
Proof.
  induction cs as [|c cs IH]; intros s HI Hc; [cbn; rewrite app_nil_r; reflexivity|].
  cbn [forallb] in Hc. apply andb_true_iff in Hc as [H1 H2].
  destruct (dml_step _ _ _ _ HI H1) as [Es HI']. cbn [spec_calls fold_left flat_map].
  change (fold_left spec_call cs (spec_call s c)) with (spec_calls (spec_call s c) cs).
  rewrite IH by assumption. rewrite Es. cbn [s_hist]. rewrite <- app_assoc. reflexivity.
Qed.

Lemma pw_good nl upd c : dml_call upd c = true -> forallb good (pw nl c) = true.
Proof.
  intros Hc. destruct c; cbn [dml_call] in Hc; try discriminate; cbn; unfold good; cbn; rewrite ?Hc, ?orb_true_r; try reflexivity.
  - destruct f; reflexivity.
  - destruct f; cbn; rewrite ?orb_true_r; reflexivity.
Qed.

Lemma start_spec nl k c0 : start_call k = Some c0 ->
  spec_ctor (init_state nl) k = spec_call (init_state nl) c0 /\
  s_hist (spec_call (init_state nl) c0) = pw nl c0.
Proof. destruct k; cbn [start_call]; try discriminate; intros H; injection H as <-; split; reflexivity. Qed.

Lemma start_ok k c0 : start_call k = Some c0 -> dml_call (is_update k) c0 = true -> ok_ctor k = true.
Proof.
  destruct k; cbn [start_call]; try discriminate; intros H; injection H as <-; cbn; intros E; rewrite ?E, ?orb_true_r; reflexivity.
Qed.

Lemma dml_init nl k c0 : start_call k = Some c0 -> dml_call (is_update k) c0 = true ->
  dml_inv nl (is_update k) (spec_call (init_state nl) c0).
Proof.
  intros Hs Hc. destruct k; cbn [start_call] in Hs; try discriminate; injection Hs as <-;
    (split; [reflexivity|]; split; [reflexivity|]); cbn; intros E; try discriminate; reflexivity.
Qed.

Lemma dml_ok nl k c0 cs : start_call k = Some c0 -> forallb (dml_call (is_update k)) (c0 :: cs) = true ->
  ok_build nl k cs = true /\ s_hist (spec_build nl k cs) = flat_map (pw nl) (c0 :: cs).
Proof.
  intros Hs Hc. cbn [forallb] in Hc. apply andb_true_iff in Hc as [H1 H2].
  pose proof (dml_init nl k c0 Hs H1) as HI. destruct (start_spec nl k c0 Hs) as [E1 E2].
  unfold ok_build, spec_build. rewrite (start_ok k c0 Hs H1), E1. cbn [andb]. split.
  - apply (good_calls (dml_inv nl (is_update k))); [|exact HI|rewrite E2; eapply pw_good; exact H1].
    intros s c HIs Hin. rewrite forallb_forall in H2. specialize (H2 _ Hin).
    destruct (dml_emits _ _ _ _ HIs H2) as [Ee _]. destruct (dml_step _ _ _ _ HIs H2) as [_ HI'].
    split; [rewrite Ee; eapply pw_good; exact H2|]. split; [|exact HI']. destruct c; try reflexivity; discriminate.
  - rewrite (dml_hist nl (is_update k) cs _ HI H2), E2. reflexivity.
Qed.

Lemma clause_eqb_eq a b : clause_eqb a b = true <-> a = b.
Proof. destruct a, b; cbn; split; congruence. Qed.
Lemma rank_inj a b : rank a = rank b -> a = b.
Proof. destruct a, b; cbn; congruence. Qed.

Lemma at_pos_flat nl cl cs : at_pos (rank cl) (flat_map (pw nl) cs) = map (pwrite nl cl) (parts cl cs).
Proof.
  induction cs as [|c cs IH]; [reflexivity|]. cbn [flat_map parts]. unfold at_pos in *. rewrite filter_app, IH.
  unfold pw. destruct (part c) as [[[cl' e] a]|]; [|reflexivity]. cbn [filter pwrite w_pos].
  destruct (clause_eqb cl cl') eqn:E.
  - apply clause_eqb_eq in E. subst cl'. rewrite Z.eqb_refl. reflexivity.
  - destruct (Z.eqb_spec (rank cl') (rank cl)) as [E2|]; [|reflexivity].
    apply rank_inj in E2. subst. rewrite (proj2 (clause_eqb_eq cl cl) eq_refl) in E. discriminate.
Qed.

Lemma parts_exprs upd cl cs : forallb (dml_call upd) cs = true ->
  Forall (fun x => match cl with ClLimit | ClOffset => fst x = [] /\ length (snd x) = 1%nat | _ => fst x <> [] end) (parts cl cs).
Proof.
  intros H. apply Forall_forall. intros [e a] Hx. unfold parts in Hx. apply in_flat_map in Hx as (c & Hc & Hx).
  rewrite forallb_forall in H. specialize (H _ Hc).
  destruct (part c) as [[[cl' e'] a']|] eqn:Ep; [|destruct Hx].
  destruct (clause_eqb cl cl') eqn:E; [|destruct Hx]. apply clause_eqb_eq in E. subst cl'.
  destruct Hx as [Hx|[]]. injection Hx as <- <-. cbn [fst snd].
  destruct c; cbn [part dml_call] in *; try discriminate; try (inversion Ep; subst; clear Ep);
    try (apply negb_true_iff, is_empty_false in H; exact H); try (split; reflexivity).
  - destruct f; discriminate.
  - destruct f; discriminate.
Qed.

Lemma more_text_all nl cl ps : Forall (fun x : bytes * list goany => fst x <> []) ps -> ps <> [] ->
  more_text true (map (pwrite nl cl) ps) = wsep cl ++ join (wsep cl) (map fst ps).
Proof.
  induction 1 as [|x ps Hx H IH]; intros Hne; [congruence|]. cbn [map more_text pwrite w_expr w_sep].
  apply is_empty_false in Hx. rewrite Hx. destruct ps as [|y ps]; [cbn; rewrite app_nil_r; reflexivity|].
  rewrite (join_cons _ (fst x) (map fst (y :: ps))) by discriminate. rewrite IH by discriminate. reflexivity.
Qed.

Lemma u_text nl upd cl cs : forallb (dml_call upd) cs = true ->
  (if has_pos (rank cl) (flat_map (pw nl) cs) then [clause_text (at_pos (rank cl) (flat_map (pw nl) cs))] else [])
  = u_clause_text nl cl cs.
Proof.
  intros Hc. unfold has_pos. rewrite at_pos_flat. pose proof (parts_exprs upd cl cs Hc) as HF. unfold u_clause_text.
  destruct (parts cl cs) as [|x ps] eqn:Ep; [reflexivity|]. cbn [map is_empty negb]. f_equal.
  cbn [clause_text]. unfold first_text. cbn [pwrite w_kw w_expr].
  assert (Hkw : is_empty (kwnl nl cl) = false) by (unfold kwnl; destruct nl, cl; reflexivity).
  rewrite Hkw. cbn [orb]. unfold kwnl at 1. inversion HF as [|? ? H1 H2]; subst.
  assert (Hlim : fst x = [] -> Forall (fun x : bytes * list goany => fst x = []) ps ->
     ((if nl then [ch 10] else []) ++ keyword cl) ++ ((if is_empty (fst x) then [] else B " ") ++ fst x) ++
       more_text (negb (is_empty (fst x))) (map (pwrite nl cl) ps) = (if nl then [ch 10] else []) ++ keyword cl ++ []).
  { intros E F. rewrite E. cbn [is_empty app negb]. rewrite <- app_assoc. f_equal. f_equal.
    clear -F. induction F as [|y ps Ey F IH]; [reflexivity|]. cbn [map more_text pwrite w_expr]. rewrite Ey. exact IH. }
  assert (Hexp : cl <> ClLimit -> cl <> ClOffset -> fst x <> [] -> Forall (fun x : bytes * list goany => fst x <> []) ps ->
     ((if nl then [ch 10] else []) ++ keyword cl) ++ ((if is_empty (fst x) then [] else B " ") ++ fst x) ++
       more_text (negb (is_empty (fst x))) (map (pwrite nl cl) ps) =
     (if nl then [ch 10] else []) ++ keyword cl ++ B " " ++ join (separator cl) (map fst (x :: ps))).
  { intros N1 N2 E F. apply is_empty_false in E. rewrite E. cbn [negb].
    assert (Ew : wsep cl = separator cl) by (destruct cl; try reflexivity; congruence).
    destruct ps as [|y ps].
    - cbn [map more_text join]. rewrite app_nil_r, <- !app_assoc. reflexivity.
    - rewrite more_text_all by (try discriminate; exact F). rewrite Ew. cbn [map]. rewrite (join_cons _ (fst x)) by discriminate.
      rewrite <- !app_assoc. reflexivity. }
  rewrite <- app_assoc.
  destruct cl; try (apply Hexp; [discriminate|discriminate|exact H1|exact H2]);
    (apply Hlim; [apply H1|eapply Forall_impl; [|exact H2]; cbn; tauto]).
Qed.

Lemma more_args_exprs nl cl ps : Forall (fun x : bytes * list goany => fst x <> []) ps ->
  forall acc, more_args acc (map (pwrite nl cl) ps) = acc ++ concat (map snd ps).
Proof.
  induction 1 as [|x ps Hx H IH]; intros acc; cbn [map more_args concat pwrite w_expr w_args]; [rewrite app_nil_r; reflexivity|].
  apply is_empty_false in Hx. rewrite Hx, IH, <- app_assoc. reflexivity.
Qed.
Lemma more_args_last nl cl ps : Forall (fun x : bytes * list goany => fst x = [] /\ length (snd x) = 1%nat) ps ->
  forall acc, length acc = 1%nat -> more_args acc (map (pwrite nl cl) ps) = last (acc :: map snd ps) [].
Proof.
  induction 1 as [|x ps [Hx Hl] H IH]; intros acc Ha; [reflexivity|].
  cbn [map more_args pwrite w_expr w_args]. rewrite Hx. cbn [is_empty].
  rewrite skipn_all2 by lia. rewrite app_nil_r. rewrite IH by exact Hl. reflexivity.
Qed.

Lemma u_args nl upd cl cs : forallb (dml_call upd) cs = true ->
  clause_args (at_pos (rank cl) (flat_map (pw nl) cs)) = u_clause_args cl cs.
Proof.
  intros Hc. rewrite at_pos_flat. pose proof (parts_exprs upd cl cs Hc) as HF. unfold u_clause_args.
  destruct (parts cl cs) as [|x ps]; [destruct cl; reflexivity|]. cbn [map clause_args pwrite w_args].
  inversion HF as [|? ? H1 H2]; subst.
  destruct cl; try (rewrite more_args_exprs by exact H2; reflexivity); (rewrite more_args_last; [reflexivity|exact H2|apply H1]).
Qed.

Lemma rank_in nl cs : Forall (fun w => In (w_pos w) (map rank clause_order)) (flat_map (pw nl) cs).
Proof.
  apply Forall_forall. intros w Hw. apply in_flat_map in Hw as (c & _ & Hw). unfold pw in Hw.
  destruct (part c) as [[[cl e] a]|]; [|destruct Hw]. destruct Hw as [<-|[]]. cbn [pwrite w_pos].
  apply in_map. destruct cl; cbn; tauto.
Qed.

Lemma clause_order_sorted : StronglySorted Z.lt (map rank clause_order).
Proof. cbn. repeat (constructor; [|repeat (constructor; [lia|]); constructor]). constructor. Qed.

Lemma dml_text nl upd cs : forallb (dml_call upd) cs = true ->
  spec_text (flat_map (pw nl) cs) = join (B " ") (flat_map (fun cl => u_clause_text nl cl cs) clause_order) /\
  spec_args (flat_map (pw nl) cs) = user_args cs.
Proof.
  intros Hc. unfold spec_text, spec_args, user_args.
  rewrite (positions_filter _ _ clause_order_sorted (rank_in nl cs)).
  split.
  - f_equal. induction clause_order as [|cl l IH]; [reflexivity|]. cbn [map filter flat_map].
    rewrite <- (u_text nl upd cl cs Hc). destruct (has_pos (rank cl) _); cbn [map app]; rewrite IH; reflexivity.
  - induction clause_order as [|cl l IH]; [reflexivity|]. cbn [map filter flat_map].
    rewrite <- (u_args nl upd cl cs Hc), <- IH. destruct (has_pos (rank cl) _) eqn:E; cbn [map concat]; [reflexivity|].
    unfold has_pos in E. apply negb_false_iff, is_empty_true in E. rewrite E. reflexivity.
Qed.

Lemma user_statement r did d k c0 cs : clean r -> start_call k = Some c0 ->
  forallb (dml_call (is_update k)) (c0 :: cs) = true ->
  exists q, build r did d k cs = Some q /\ render false q = Some (user_sql (d_nl d) (c0 :: cs)) /\
            st_args q = user_args (c0 :: cs).
Proof.
  intros HC Hs Hc. destruct (dml_ok (d_nl d) k c0 cs Hs Hc) as [Hok Hh].
  destruct (build_sim r did d k cs HC Hok) as (q & E & HS & _). exists q. split; [exact E|].
  rewrite (render_plain q _ HS). destruct HS as (((css & _ & _ & EA) & _) & _). rewrite EA.
  unfold spec_sql. rewrite Hh. destruct (dml_text (d_nl d) _ _ Hc) as [T1 T2]. rewrite T1, T2. split; reflexivity.
Qed.
