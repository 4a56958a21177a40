(** Proof that the builder meets XsqlFullSpec. *)
From Verif Require Import GoBase GoBaseFacts XsqlModel XsqlSpec XsqlUserSpec XsqlProofs XsqlPg XsqlSim XsqlRender XsqlUser XsqlStatic XsqlOrder XsqlInsert XsqlMore XsqlFullSpec.
From Coq Require Import ZifyBool ZifyNat Sorted.
Open Scope Z_scope.

Definition frank (cl : fclause) : Z :=
  match cl with
  | FWith => 200 | FDelete => 600 | FUpdate => 700 | FSet => 800 | FSelect => 900 | FFrom => 1100 | FWhere => 1200
  | FGroupBy => 1300 | FHaving => 1400 | FOrderBy => 1600 | FLimit => 1700 | FOffset => 1800 | FReturning => 1900
  end.
Definition fkwnl (nl : bool) (cl : fclause) : bytes := (if nl then [ch 10] else []) ++ fkeyword cl.
Definition cont (c : bcall) : bool :=
  match c with CJoin _ _ | CLeftJoin _ _ | CRightJoin _ _ | CFullJoin _ _ | CIn _ => true | _ => false end.
Definition iw (nl k : bool) (i : item) : write :=
  mkWrite (frank (i_clause i)) (if k then [] else fkwnl nl (i_clause i)) (i_expr i) (i_args i) (i_sep i).
Definition fw (nl : bool) (c : bcall) : list write :=
  match c with
  | CWith n t a => [mkWrite 200 (fkwnl nl FWith) [] [] []; mkWrite 200 [] (n ++ B " AS (" ++ t ++ B ")") a (B ", ")]
  | _ => map (iw nl (cont c)) (items c)
  end.

Definition finv (nl upd : bool) (s : sstate) : Prop :=
  s_nl s = nl /\ has_pos 300 (s_hist s) = false /\ (upd = true -> has_pos 700 (s_hist s) = true).

Lemma full_emits nl upd s c : finv nl upd s -> full_call upd c = true -> emits s c = fw nl c.
Proof.
  intros (H1 & H2 & H3) Hc.
  destruct c; cbn [full_call] in Hc; try discriminate; cbn [emits fw items map cont]; unfold iw, fkwnl, nlkw, join_item, comma;
    cbn [is_empty fkeyword frank i_clause i_sep i_expr i_args]; rewrite ?H1; try reflexivity.
  - subst upd. rewrite H2, (H3 eq_refl). reflexivity.
  - subst upd. rewrite H2, (H3 eq_refl). reflexivity.
  - rewrite map_app. destruct (1 <? page); reflexivity.
  - rewrite map_map. reflexivity.
Qed.
Lemma fw_pos nl c w : In w (fw nl c) -> w_pos w <> 300.
Proof.
  intros H. assert (G : forall k is, In w (map (iw nl k) is) -> w_pos w <> 300).
  { intros k is Hi. apply in_map_iff in Hi as (i & <- & _). cbn [iw w_pos]. destruct (i_clause i); discriminate. }
  unfold fw in H. destruct c; try (eapply G; exact H). destruct H as [<-|[<-|[]]]; discriminate.
Qed.
Lemma has_pos_none p h : (forall w, In w h -> w_pos w <> p) -> has_pos p h = false.
Proof.
  intros H. unfold has_pos, at_pos. induction h as [|w h IH]; [reflexivity|]. cbn [filter].
  destruct (Z.eqb_spec (w_pos w) p); [exfalso; eapply H; [left; reflexivity|assumption]|]. apply IH. intros; apply H; right; assumption.
Qed.
Lemma full_step nl upd s c : finv nl upd s -> full_call upd c = true ->
  s_hist (spec_call s c) = s_hist s ++ fw nl c /\ finv nl upd (spec_call s c).
Proof.
  intros HI Hc. pose proof (full_emits _ _ _ _ HI Hc) as E. destruct HI as (H1 & H2 & H3). unfold spec_call. rewrite E. cbn [s_hist].
  split; [reflexivity|]. split; [cbn [s_nl]; destruct c; try exact H1; discriminate|]. cbn [s_hist]. rewrite !has_pos_app, H2. cbn [orb].
  split; [apply has_pos_none; intros w; apply fw_pos|]. intros Hu. rewrite (H3 Hu). reflexivity.
Qed.
Lemma full_hist nl upd cs : forall s, finv nl upd s -> forallb (full_call upd) cs = true ->
  s_hist (spec_calls s cs) = s_hist s ++ flat_map (fw nl) cs.
Proof.
  induction cs as [|c cs IH]; intros s HI Hc; [cbn; rewrite app_nil_r; reflexivity|].
  cbn [forallb] in Hc. apply andb_true_iff in Hc as [H1 H2].
  destruct (full_step _ _ _ _ HI H1) as [Es HI']. cbn [spec_calls fold_left flat_map].
  change (fold_left spec_call cs (spec_call s c)) with (spec_calls (spec_call s c) cs).
  rewrite IH by assumption. rewrite Es, <- app_assoc. reflexivity.
Qed.
Lemma full_dests cs : forall s, s_dest (spec_calls s cs) = s_dest s ++ full_dest cs.
Proof.
  induction cs as [|c cs IH]; intros s; [cbn; rewrite app_nil_r; reflexivity|].
  cbn [spec_calls fold_left]. change (fold_left spec_call cs (spec_call s c)) with (spec_calls (spec_call s c) cs).
  rewrite IH. cbn [spec_call s_dest]. rewrite <- app_assoc. unfold dests. reflexivity.
Qed.

(** Every item is acceptable. *)
Definition item_ok (i : item) : bool :=
  if paging (i_clause i) then is_empty (i_expr i) && (length (i_args i) =? 1)%nat else negb (is_empty (i_expr i)).
Lemma nonempty_app1 {A} (a b : list A) : is_empty a = false -> is_empty (a ++ b) = false.
Proof. destruct a; [discriminate|reflexivity]. Qed.
Lemma nonempty_app2 {A} (a b : list A) : is_empty b = false -> is_empty (a ++ b) = false.
Proof. destruct a; [auto|reflexivity]. Qed.
Lemma full_items_ok upd c : full_call upd c = true -> forallb item_ok (items c) = true.
Proof.
  intros H. destruct c; cbn [full_call] in H; try discriminate; cbn [items]; try reflexivity;
    try (cbn; rewrite H; reflexivity); try (cbn [forallb item_ok i_clause paging i_expr]; unfold item_ok; cbn [i_clause paging i_expr]; rewrite ?nonempty_app2 by reflexivity; reflexivity).
  - cbn [forallb]; unfold item_ok; cbn [i_clause paging i_expr]; rewrite H; reflexivity.
  - destruct (1 <? page); reflexivity.
  - rewrite forallb_forall in *. intros i Hi. apply in_map_iff in Hi as (x & <- & Hx). apply (H x Hx).
Qed.
Lemma fw_good nl upd c : full_call upd c = true -> forallb good (fw nl c) = true.
Proof.
  intros H. pose proof (full_items_ok upd c H) as Hi.
  assert (G : forallb good (map (iw nl (cont c)) (items c)) = true).
  { clear H. induction (items c) as [|i l IH]; [reflexivity|]. cbn [forallb map] in *. apply andb_true_iff in Hi as [H1 H2]. rewrite (IH H2), andb_true_r.
    unfold good, iw; cbn [w_pos w_expr w_args]. unfold item_ok in H1. destruct (i_clause i); cbn [paging frank] in *; cbn; rewrite ?H1, ?orb_true_r; try reflexivity; exact H1. }
  destruct c; exact G.
Qed.

Lemma full_start_spec nl k c0 : full_start k = Some c0 ->
  spec_ctor (init_state nl) k = spec_call (init_state nl) c0 /\ s_hist (spec_call (init_state nl) c0) = fw nl c0.
Proof. destruct k; cbn [full_start]; try discriminate; intros H; injection H as <-; split; reflexivity. Qed.
Lemma full_start_ok k c0 : full_start k = Some c0 -> full_call (updates k) c0 = true -> ok_ctor k = true.
Proof. destruct k; cbn [full_start]; try discriminate; intros H; injection H as <-; cbn; intros E; rewrite ?E, ?orb_true_r; reflexivity. Qed.
Lemma full_init nl k c0 : full_start k = Some c0 -> full_call (updates k) c0 = true -> finv nl (updates k) (spec_call (init_state nl) c0).
Proof.
  intros Hs Hc. destruct k; cbn [full_start] in Hs; try discriminate; injection Hs as <-;
    (split; [reflexivity|]; split; [reflexivity|]); cbn; intros E; try discriminate; reflexivity.
Qed.
Lemma full_ok nl k c0 cs : full_start k = Some c0 -> forallb (full_call (updates k)) (c0 :: cs) = true ->
  ok_build nl k cs = true /\ s_hist (spec_build nl k cs) = flat_map (fw nl) (c0 :: cs) /\ s_dest (spec_build nl k cs) = full_dest (c0 :: cs).
Proof.
  intros Hs Hc. cbn [forallb] in Hc. apply andb_true_iff in Hc as [H1 H2].
  pose proof (full_init nl k c0 Hs H1) as HI. destruct (full_start_spec nl k c0 Hs) as [E1 E2].
  unfold ok_build, spec_build. rewrite (full_start_ok k c0 Hs H1), E1. cbn [andb]. split; [|split].
  - apply (good_calls (finv nl (updates k))); [|exact HI|rewrite E2; eapply fw_good; exact H1].
    intros s c HIs Hin. rewrite forallb_forall in H2. specialize (H2 _ Hin).
    rewrite (full_emits _ _ _ _ HIs H2). destruct (full_step _ _ _ _ HIs H2) as [_ HI'].
    split; [eapply fw_good; exact H2|]. split; [|exact HI']. destruct c; try reflexivity; discriminate.
  - rewrite (full_hist nl (updates k) cs _ HI H2), E2. reflexivity.
  - rewrite full_dests. cbn [spec_call s_dest init_state app]. unfold full_dest. cbn [flat_map]. reflexivity.
Qed.

(** ** Text and arguments of one clause *)
Definition w3 (w : write) : bytes * bytes * list goany := (w_sep w, w_expr w, w_args w).
Definition i3 (i : item) : bytes * bytes * list goany := (i_sep i, i_expr i, i_args i).
Lemma fclause_eqb_eq a b : fclause_eqb a b = true <-> a = b.
Proof. destruct a, b; cbn; split; congruence. Qed.
Lemma frank_inj a b : frank a = frank b -> a = b.
Proof. destruct a, b; cbn; congruence. Qed.
Lemma at_pos_app p h h' : at_pos p (h ++ h') = at_pos p h ++ at_pos p h'.
Proof. apply filter_app. Qed.
Lemma at_pos_iw nl k cl is : map w3 (at_pos (frank cl) (map (iw nl k) is)) = map i3 (filter (fun i => fclause_eqb cl (i_clause i)) is).
Proof.
  induction is as [|i is IH]; [reflexivity|]. cbn [map at_pos filter iw w_pos]. fold (at_pos (frank cl) (map (iw nl k) is)).
  destruct (fclause_eqb cl (i_clause i)) eqn:E.
  - apply fclause_eqb_eq in E. subst cl. rewrite Z.eqb_refl. cbn [map]. rewrite <- IH. reflexivity.
  - destruct (Z.eqb_spec (frank (i_clause i)) (frank cl)) as [E2|]; [|exact IH]. apply frank_inj in E2. subst cl.
    rewrite (proj2 (fclause_eqb_eq _ _) eq_refl) in E. discriminate.
Qed.
Lemma at_pos_full nl cl cs : cl <> FWith -> map w3 (at_pos (frank cl) (flat_map (fw nl) cs)) = map i3 (of_clause cl cs).
Proof.
  intros Hn. unfold of_clause. induction cs as [|c cs IH]; [reflexivity|]. cbn [flat_map]. rewrite at_pos_app, filter_app, !map_app, IH. f_equal.
  destruct c; try apply at_pos_iw. cbn [fw items filter i_clause]. unfold at_pos. cbn [filter w_pos]. destruct cl; try congruence; reflexivity.
Qed.
Lemma at_pos_with nl cs : at_pos 200 (flat_map (fw nl) cs) =
  flat_map (fun i => [mkWrite 200 (fkwnl nl FWith) [] [] []; mkWrite 200 [] (i_expr i) (i_args i) (i_sep i)]) (of_clause FWith cs).
Proof.
  unfold of_clause. induction cs as [|c cs IH]; [reflexivity|]. cbn [flat_map]. rewrite at_pos_app, filter_app, flat_map_app, IH. f_equal.
  assert (G : forall k is, filter (fun i => fclause_eqb FWith (i_clause i)) is = [] -> at_pos 200 (map (iw nl k) is) = []).
  { intros k is. induction is as [|i is IH2]; [reflexivity|]. cbn [filter map at_pos iw w_pos]. destruct (i_clause i); cbn [fclause_eqb]; try discriminate; cbn; exact IH2. }
  destruct c; try reflexivity; cbn [fw]; rewrite G; try reflexivity.
  - cbn [items]. destruct (1 <? page); reflexivity.
  - cbn [items]. destruct (1 <? page); reflexivity.
  - cbn [items]. induction (flat_map bind_leaves fs) as [|x l IHl]; [reflexivity|exact IHl].
  - cbn [items]. induction (flat_map bind_leaves fs) as [|x l IHl]; [reflexivity|exact IHl].
Qed.

Definition e3 (x : bytes * bytes * list goany) := snd (fst x).
Lemma more_text_3 ws : Forall (fun w => w_expr w <> []) ws -> more_text true ws = concat (map (fun x => fst (fst x) ++ e3 x) (map w3 ws)).
Proof.
  induction 1 as [|w ws Hw H IH]; [reflexivity|]. cbn [more_text map concat w3 e3 fst snd]. apply is_empty_false in Hw. rewrite Hw, IH, <- app_assoc. reflexivity.
Qed.
Lemma more_args_3 ws : Forall (fun w => w_expr w <> []) ws -> forall acc, more_args acc ws = acc ++ concat (map snd (map w3 ws)).
Proof.
  induction 1 as [|w ws Hw H IH]; intros acc; cbn [more_args map concat]; [rewrite app_nil_r; reflexivity|].
  apply is_empty_false in Hw. rewrite Hw, IH, <- app_assoc. reflexivity.
Qed.
Lemma more_args_page ws : Forall (fun w => w_expr w = [] /\ length (w_args w) = 1%nat) ws ->
  forall acc, length acc = 1%nat -> more_args acc ws = last (acc :: map snd (map w3 ws)) [].
Proof.
  induction 1 as [|w ws [Hx Hl] H IH]; intros acc Ha; [reflexivity|]. cbn [map more_args w3 snd]. rewrite Hx. cbn [is_empty].
  rewrite skipn_all2 by lia. rewrite app_nil_r. rewrite IH by exact Hl. reflexivity.
Qed.

Lemma of_clause_ok upd cl cs : forallb (full_call upd) cs = true ->
  Forall (fun i => i_clause i = cl /\ item_ok i = true) (of_clause cl cs).
Proof.
  intros H. apply Forall_forall. intros i Hi. unfold of_clause in Hi. apply filter_In in Hi as [Hi He]. apply fclause_eqb_eq in He. split; [congruence|].
  apply in_flat_map in Hi as (c & Hc & Hi). rewrite forallb_forall in H. pose proof (full_items_ok upd c (H c Hc)) as G. rewrite forallb_forall in G. auto.
Qed.

(** The first write of a clause carries its keyword. *)
Definition starts (nl : bool) (cl : fclause) (ws : list write) : Prop := match ws with [] => True | w :: _ => w_kw w = fkwnl nl cl end.
Lemma starts_app nl cl a b : starts nl cl a -> (a = [] -> starts nl cl b) -> starts nl cl (a ++ b).
Proof. destruct a; cbn; auto. Qed.
Lemma starts_iw nl cl is : starts nl cl (at_pos (frank cl) (map (iw nl false) is)).
Proof.
  induction is as [|i is IH]; [exact I|]. cbn [map at_pos filter iw w_pos]. destruct (Z.eqb_spec (frank (i_clause i)) (frank cl)) as [E|]; [|exact IH].
  apply frank_inj in E. cbn. rewrite E. reflexivity.
Qed.
Lemma starts_full nl cl : forall cs sf sw, opened_first sf sw cs = true ->
  (cl = FFrom -> sf = false) -> (cl = FWhere -> sw = false) -> starts nl cl (at_pos (frank cl) (flat_map (fw nl) cs)).
Proof.
  induction cs as [|c cs IH]; intros sf sw H Hf Hw; [exact I|]. cbn [opened_first] in H. apply andb_true_iff in H as [H1 H2].
  cbn [flat_map]. rewrite at_pos_app. apply starts_app.
  - destruct (cont c) eqn:Ec.
    + destruct c; try discriminate; cbn [fw items map cont]; unfold join_item, iw, at_pos; cbn [filter w_pos frank i_clause];
        destruct cl; try exact I; try (rewrite (Hf eq_refl) in H1; discriminate); rewrite (Hw eq_refl) in H1; discriminate.
    + replace (fw nl c) with (if match c with CWith _ _ _ => true | _ => false end then fw nl c else map (iw nl false) (items c)) by (destruct c; try discriminate; reflexivity).
      destruct c; try apply starts_iw. destruct cl; try exact I; reflexivity.
  - intros En. eapply IH; [exact H2| |].
    + intros ->. rewrite (Hf eq_refl). cbn [orb]. destruct c; try reflexivity. discriminate.
    + intros ->. rewrite (Hw eq_refl). cbn [orb]. destruct c; try reflexivity. discriminate.
Qed.

Lemma map_nil_inv {A B} (f : A -> B) l : map f l = [] -> l = [].
Proof. destruct l; [reflexivity|discriminate]. Qed.

Lemma full_clause nl upd cl cs : forallb (full_call upd) cs = true -> opened_first false false cs = true ->
  let ws := at_pos (frank cl) (flat_map (fw nl) cs) in
  (if is_empty ws then [] else [clause_text ws]) = f_text nl cl (of_clause cl cs) /\ clause_args ws = f_args cl (of_clause cl cs).
Proof.
  intros Hc Ho ws. pose proof (of_clause_ok upd cl cs Hc) as HF.
  destruct (fclause_eqb cl FWith) eqn:EW.
  - apply fclause_eqb_eq in EW. subst cl. subst ws. change (frank FWith) with 200. rewrite at_pos_with.
    destruct (of_clause FWith cs) as [|i is]; [split; reflexivity|]. cbn [flat_map app is_empty f_text f_args paging map concat].
    inversion HF as [|? ? [Hi1 Hi2] HF']; subst. unfold item_ok in Hi2. rewrite Hi1 in Hi2. cbn [paging] in Hi2. apply negb_true_iff in Hi2.
    assert (GT : forall l, Forall (fun i => i_clause i = FWith /\ item_ok i = true) l ->
       more_text true (flat_map (fun i => [mkWrite 200 (fkwnl nl FWith) [] [] []; mkWrite 200 [] (i_expr i) (i_args i) (i_sep i)]) l) = concat (map (fun j => i_sep j ++ i_expr j) l)).
    { induction 1 as [|j l [J1 J2] Hl IHl]; [reflexivity|]. cbn [flat_map app more_text w_expr w_sep is_empty map concat]. unfold item_ok in J2. rewrite J1 in J2. cbn [paging] in J2.
      apply negb_true_iff in J2. rewrite J2, IHl, <- app_assoc. reflexivity. }
    assert (GA : forall l, Forall (fun i => i_clause i = FWith /\ item_ok i = true) l -> forall acc,
       more_args acc (flat_map (fun i => [mkWrite 200 (fkwnl nl FWith) [] [] []; mkWrite 200 [] (i_expr i) (i_args i) (i_sep i)]) l) = acc ++ concat (map i_args l)).
    { induction 1 as [|j l [J1 J2] Hl IHl]; intros acc; [cbn; rewrite app_nil_r; reflexivity|]. cbn [flat_map app more_args w_expr w_args is_empty map concat length skipn]. unfold item_ok in J2. rewrite J1 in J2. cbn [paging] in J2.
      apply negb_true_iff in J2. rewrite J2, IHl, <- app_assoc. reflexivity. }
    split.
    + f_equal. cbn [clause_text first_text w_kw w_expr is_empty negb more_text w_sep]. unfold first_text. cbn [w_kw w_expr is_empty]. rewrite orb_true_r, Hi2, GT by exact HF'.
      cbn [app]. rewrite app_nil_r. unfold fkwnl. rewrite <- !app_assoc. reflexivity.
    + cbn [clause_args w_args more_args w_expr is_empty]. rewrite Hi2. cbn [app]. apply GA. exact HF'.
  - assert (Hn : cl <> FWith) by (intros ->; discriminate). pose proof (at_pos_full nl cl cs Hn) as E3. fold ws in E3.
    pose proof (starts_full nl cl cs false false Ho (fun _ => eq_refl) (fun _ => eq_refl)) as HS. fold ws in HS.
    destruct (of_clause cl cs) as [|i is]; [apply map_nil_inv in E3; rewrite E3; unfold f_args; destruct (paging cl); split; reflexivity|].
    destruct ws as [|w ws']; [discriminate|]. cbn [map is_empty] in *. injection E3 as E4 E5 E6 E7.
    inversion HF as [|? ? [Hi1 Hi2] HF']; subst. unfold item_ok in Hi2.
    cbn [clause_text clause_args f_text]. unfold first_text. cbn in HS. rewrite HS.
    assert (Hk : is_empty (fkwnl nl (i_clause i)) = false) by (unfold fkwnl; destruct nl, (i_clause i); reflexivity). rewrite Hk. cbn [orb]. unfold f_args.
    destruct (paging (i_clause i)) eqn:EP.
    + apply andb_true_iff in Hi2 as [P1 P2]. apply is_empty_true in P1. apply Nat.eqb_eq in P2. rewrite E5, P1. cbn [is_empty app negb].
      assert (HW : Forall (fun w => w_expr w = [] /\ length (w_args w) = 1%nat) ws').
      { clear -E7 HF' EP. revert is E7 HF'. induction ws' as [|x l IH]; intros [|j js] E7 HF'; try discriminate; constructor.
        - cbn [map] in E7. injection E7 as A1 A2 A3 A4. inversion HF' as [|? ? [J1 J2] _]; subst. unfold item_ok in J2. rewrite J1, EP in J2. apply andb_true_iff in J2 as [J2 J3].
          apply is_empty_true in J2. apply Nat.eqb_eq in J3. rewrite A2, A3. auto.
        - cbn [map] in E7. injection E7 as A1 A2 A3 A4. inversion HF'; subst. eapply IH; eassumption. }
      split.
      * f_equal. rewrite app_nil_r. replace (more_text false ws') with (@nil ascii); [unfold fkwnl; rewrite !app_nil_r; reflexivity|].
        clear -HW. induction HW as [|x l [A _] H IH]; [reflexivity|]. cbn [more_text]. rewrite A. exact IH.
      * rewrite (more_args_page ws' HW) by (rewrite E6; exact P2). rewrite E6. cbn [map]. f_equal. f_equal. rewrite E7, map_map. reflexivity.
    + apply negb_true_iff in Hi2. rewrite E5, Hi2. cbn [negb].
      assert (HW : Forall (fun w => w_expr w <> []) ws').
      { clear -E7 HF' EP. revert is E7 HF'. induction ws' as [|x l IH]; intros [|j js] E7 HF'; try discriminate; constructor.
        - cbn [map] in E7. injection E7 as A1 A2 A3 A4. inversion HF' as [|? ? [J1 J2] _]; subst. unfold item_ok in J2. rewrite J1, EP in J2. apply negb_true_iff, is_empty_false in J2. congruence.
        - cbn [map] in E7. injection E7 as A1 A2 A3 A4. inversion HF'; subst. eapply IH; eassumption. }
      rewrite (more_text_3 ws' HW), (more_args_3 ws' HW), E7, E6, !map_map. split; [|reflexivity].
      f_equal. unfold fkwnl. rewrite <- !app_assoc. reflexivity.
Qed.

Lemma frank_in nl cs : Forall (fun w => In (w_pos w) (map frank forder)) (flat_map (fw nl) cs).
Proof.
  apply Forall_forall. intros w Hw. apply in_flat_map in Hw as (c & _ & Hw).
  assert (G : forall k is, In w (map (iw nl k) is) -> In (w_pos w) (map frank forder)).
  { intros k is Hi. apply in_map_iff in Hi as (i & <- & _). cbn [iw w_pos]. apply in_map. destruct (i_clause i); cbn; tauto. }
  unfold fw in Hw. destruct c; try (eapply G; exact Hw). destruct Hw as [<-|[<-|[]]]; left; reflexivity.
Qed.
Lemma forder_sorted : StronglySorted Z.lt (map frank forder).
Proof. cbn. repeat (constructor; [|repeat (constructor; [lia|]); constructor]). constructor. Qed.
Lemma full_text nl upd cs : forallb (full_call upd) cs = true -> opened_first false false cs = true ->
  spec_sql (flat_map (fw nl) cs) = full_sql nl cs /\ spec_args (flat_map (fw nl) cs) = full_args cs.
Proof.
  intros Hc Ho. unfold spec_sql, full_sql, spec_text, spec_args, full_args.
  rewrite (positions_filter _ _ forder_sorted (frank_in nl cs)). split.
  - f_equal. f_equal. induction forder as [|cl l IH]; [reflexivity|]. cbn [map filter flat_map].
    destruct (full_clause nl upd cl cs Hc Ho) as [T _]. rewrite <- T. unfold has_pos at 1. destruct (is_empty (at_pos (frank cl) _)); cbn [negb map app]; rewrite IH; reflexivity.
  - induction forder as [|cl l IH]; [reflexivity|]. cbn [map filter flat_map].
    destruct (full_clause nl upd cl cs Hc Ho) as [_ A]. rewrite <- A, <- IH. unfold has_pos at 1. destruct (is_empty (at_pos (frank cl) _)) eqn:E; cbn [negb map concat]; [|reflexivity].
    apply is_empty_true in E. rewrite E. reflexivity.
Qed.
Lemma full_observe r did d k c0 cs : clean r -> d_cache d = [] -> full_start k = Some c0 ->
  forallb (full_call (updates k)) (c0 :: cs) = true -> opened_first false false (c0 :: cs) = true -> renderable d k cs = true ->
  observe r did d k cs = Some (numbered d (full_sql (d_nl d) (c0 :: cs)), full_args (c0 :: cs), full_dest (c0 :: cs)).
Proof.
  intros HC Hd Hs Hc Ho Hr. destruct (full_ok (d_nl d) k c0 cs Hs Hc) as (Hok & Hh & HD).
  rewrite observe_hist by assumption. unfold shown_hist. rewrite Hh, HD. destruct (full_text (d_nl d) _ _ Hc Ho) as [T1 T2]. rewrite T1, T2. reflexivity.
Qed.
