(** The exact postgres text of any statement. *)
From Verif Require Import GoBase GoBaseFacts XsqlModel XsqlSpec XsqlRunSpec XsqlProofs XsqlPg XsqlRuns XsqlSim XsqlRender XsqlUser XsqlStatic XsqlMore.
From Coq Require Import ZifyBool ZifyNat Sorted.
Open Scope Z_scope.

Definition step_run (k : Z) (r : run) : Z * bytes :=
  if (0 <? r_args r)%nat then pg_number k (r_text r) else (k, r_text r).

Lemma number_runs_cons k r l : number_runs k (r :: l) =
  (fst (number_runs (fst (step_run k r)) l), snd (step_run k r) ++ snd (number_runs (fst (step_run k r)) l)).
Proof.
  cbn [number_runs]. fold (step_run k r). destruct (step_run k r) as [k1 o1]. cbn [fst snd]. destruct (number_runs k1 l) as [k2 o2]. reflexivity.
Qed.

Lemma step_run_le k r : k <= fst (step_run k r).
Proof. unfold step_run. destruct (0 <? r_args r)%nat; cbn [fst]; [rewrite pg_number_fst|]; lia. Qed.
Lemma number_runs_le l : forall k, k <= fst (number_runs k l).
Proof.
  induction l as [|r l IH]; intros k; [cbn; lia|]. rewrite number_runs_cons. cbn [fst].
  pose proof (step_run_le k r). specialize (IH (fst (step_run k r))). lia.
Qed.

Lemma render_same_exact buf p rest cs : Forall (fun c => ck_pos c = p) cs -> Forall (valid buf) cs ->
  forall k out, 0 <= k -> render_loop true buf false p k (cs ++ rest) out =
  render_loop true buf false p (fst (number_runs k (map (run_of buf) cs))) rest (out ++ snd (number_runs k (map (run_of buf) cs))).
Proof.
  induction cs as [|c cs IH]; intros HP HV k out Hk.
  - cbn. rewrite app_nil_r. reflexivity.
  - inversion HP as [|? ? P1 P2]; inversion HV as [|? ? V1 V2]; subst. cbn [map]. rewrite number_runs_cons. cbn [fst snd].
    cbn [app render_loop]. rewrite Z.ltb_irrefl. cbn [negb andb]. rewrite slice_sl by assumption.
    pose proof (step_run_le k (run_of buf c)) as Hle. specialize (IH P2 V2).
    unfold step_run in *. cbn [run_of r_args r_text] in *. destruct ((0 <? ck_argLen c)%nat); cbn [andb fst snd] in *.
    + rewrite write_pg_spec by exact Hk. rewrite IH by lia. rewrite <- app_assoc. reflexivity.
    + rewrite IH by lia. rewrite <- app_assoc. reflexivity.
Qed.

Lemma number_clauses_cons k g gs : number_clauses k (g :: gs) = snd (number_runs k g) :: number_clauses (fst (number_runs k g)) gs.
Proof. cbn [number_clauses]. destruct (number_runs k g). reflexivity. Qed.

Lemma number_clauses_length gs : forall k, length (number_clauses k gs) = length gs.
Proof. induction gs as [|g gs IH]; intros k; [reflexivity|]. rewrite number_clauses_cons. cbn [length]. rewrite IH. reflexivity. Qed.

Lemma render_groups_exact buf h ps css :
  Forall2 (fun p cs => repg buf p (at_pos p h) cs) ps css -> StronglySorted Z.lt ps ->
  forall k first pos out, 0 <= k -> (first = true \/ Forall (Z.lt pos) ps) ->
  render_loop true buf first pos k (concat css) out =
  Some (out ++ (if first || is_empty ps then [] else B " ") ++ join (B " ") (number_clauses k (map (map (run_of buf)) css))).
Proof.
  induction 1 as [|p cs ps css H1 H2 IH]; intros HS k first pos out Hk Hf.
  - cbn. rewrite orb_true_r, app_nil_r. reflexivity.
  - inversion HS as [|? ? HS' HF]; subst.
    pose proof (rg_ne _ _ _ _ H1) as Hne. pose proof (rg_pos _ _ _ _ H1) as Hp. pose proof (rg_valid _ _ _ _ H1) as Hv.
    destruct cs as [|c cs]; [congruence|]. inversion Hp as [|? ? Hp1 Hp2]; inversion Hv as [|? ? Hv1 Hv2]; subst.
    cbn [concat app map is_empty render_loop]. rewrite orb_false_r. rewrite slice_sl by assumption.
    assert (EO : (if negb first && (pos <? ck_pos c) then out ++ B " " else out) = out ++ (if first then [] else B " ")).
    { destruct first; cbn [negb andb]; [symmetry; apply app_nil_r|]. destruct Hf as [Hf|Hf]; [discriminate|].
      inversion Hf; subst. destruct (Z.ltb_spec pos (ck_pos c)); [reflexivity|lia]. }
    rewrite EO. set (o1 := out ++ (if first then [] else B " ")). cbn zeta.
    rewrite number_clauses_cons, number_runs_cons. cbn [fst snd].
    pose proof (step_run_le k (run_of buf c)) as Hle.
    pose proof (number_runs_le (map (run_of buf) cs) (fst (step_run k (run_of buf c)))) as Hle2.
    match goal with |- ?x = _ => assert (ES : x = render_loop true buf false (ck_pos c) (fst (step_run k (run_of buf c))) (cs ++ concat css) (o1 ++ snd (step_run k (run_of buf c)))) end.
    { unfold step_run. cbn [run_of r_args r_text]. destruct ((0 <? ck_argLen c)%nat); cbn [andb fst snd]; [|reflexivity].
      rewrite write_pg_spec by exact Hk. reflexivity. }
    rewrite ES, (render_same_exact buf (ck_pos c) (concat css) cs Hp2 Hv2) by lia.
    rewrite IH; [|exact HS'|lia|right; exact HF]. unfold o1. f_equal. rewrite <- !app_assoc. do 2 f_equal. cbn [orb].
    destruct ps as [|p2 ps].
    + inversion H2; subst. cbn. rewrite ?app_nil_r. reflexivity.
    + inversion H2; subst. cbn [map]. rewrite number_clauses_cons.
      rewrite (join_cons _ (_ ++ _)) by discriminate. cbn [is_empty]. rewrite <- ?app_assoc. reflexivity.
Qed.

Lemma filter_rev' {A} (f : A -> bool) l : filter f (rev l) = rev (filter f l).
Proof.
  induction l as [|x l IH]; [reflexivity|]. cbn [rev filter]. rewrite filter_app, IH. cbn [filter]. destruct (f x); cbn [rev]; rewrite ?app_nil_r; reflexivity.
Qed.

Lemma runs_at_chunks buf cs h p : Runs buf cs h -> runs_at p h = map (run_of buf) (filter (atp p) cs).
Proof.
  intros (L & HL & HF & _). unfold runs_at. rewrite <- HL.
  assert (E : filter (fun r => r_pos r =? p) (map (run_of buf) L) = map (run_of buf) (filter (atp p) L)).
  { clear. induction L as [|c L IH]; [reflexivity|]. cbn [map filter run_of r_pos]. unfold atp at 1. rewrite IH. destruct (ck_pos c =? p); reflexivity. }
  rewrite E, <- HF, filter_rev', map_rev, rev_involutive. reflexivity.
Qed.

Lemma group_filter buf h ps css : Forall2 (fun p cs => repg buf p (at_pos p h) cs) ps css -> StronglySorted Z.lt ps ->
  map (fun p => filter (atp p) (concat css)) ps = css.
Proof.
  induction 1 as [|p cs ps css H1 H2 IH]; intros HS; [reflexivity|]. inversion HS as [|? ? HS' HF]; subst.
  pose proof (rg_pos _ _ _ _ H1) as Hp. cbn [map concat]. f_equal.
  - rewrite filter_app. rewrite (filter_none (atp p) (concat css)).
    + rewrite app_nil_r. clear -Hp. induction Hp as [|c l Hc Hp IH]; [reflexivity|]. rewrite filter_atp, Hc, Z.eqb_refl, IH. reflexivity.
    + pose proof (forall2_chunk_pos _ _ _ _ _ H2 HF) as G. eapply Forall_impl; [|exact G]. cbn beta. intros c Hc. unfold atp. apply Z.eqb_neq. lia.
  - refine (eq_trans _ (IH HS')). apply map_ext_in. intros q Hq. rewrite filter_app. rewrite (filter_none (atp q) cs); [reflexivity|].
    eapply Forall_impl; [|exact Hp]. cbn beta. intros c Hc. unfold atp. apply Z.eqb_neq. rewrite Forall_forall in HF. specialize (HF _ Hq). lia.
Qed.

Lemma render_pg_exact q s : Sim q s -> render true q = Some (trim sql_ws (pg_text (s_hist s))).
Proof.
  intros (((css & E & H2 & _) & _ & HRun) & _). unfold render.
  pose proof (render_groups_exact _ _ _ _ H2 (positions_sorted _) 1 true 0 [] ltac:(lia) (or_introl eq_refl)) as ER.
  rewrite <- E in ER. rewrite ER. cbn [orb app]. unfold pg_text. do 4 f_equal.
  rewrite <- (group_filter _ _ _ _ H2 (positions_sorted _)) at 1. rewrite map_map. apply map_ext. intros p.
  rewrite (runs_at_chunks _ _ _ p HRun), E. reflexivity.
Qed.

Lemma observe_pg_exact r did d k cs : clean r -> d_cache d = [] -> is_pg d = true -> ok_build (d_nl d) k cs = true ->
  let s := spec_build (d_nl d) k cs in
  observe r did d k cs = Some (trim sql_ws (pg_text (s_hist s)), spec_args (s_hist s), s_dest s).
Proof.
  intros HC Hd Hp Hok s. destruct (build_sim r did d k cs HC Hok) as (q & E & HS & Hs & _).
  unfold observe. rewrite E. cbn [bind]. unfold shown. rewrite cold_string by assumption. rewrite Hp, (render_pg_exact q _ HS). cbn [bind].
  destruct HS as (((css & _ & _ & EA) & _) & _ & _ & ED). rewrite EA, ED. reflexivity.
Qed.

(** The runs of a clause are the clause: their texts, one after the other, are
    its text. *)
Lemma runs_text nl k cs : ok_build nl k cs = true ->
  let h := s_hist (spec_build nl k cs) in
  forall p, In p (positions h) -> concat (map r_text (runs_at p h)) = clause_text (at_pos p h) /\
    list_sum (map r_args (runs_at p h)) = length (clause_args (at_pos p h)).
Proof.
  intros Hok h p Hin.
  assert (HC : clean new_stmt) by (repeat split).
  destruct (build_sim new_stmt 0 (mkDialect [] [] nl) k cs HC Hok) as (q & E & HS & _). cbn [d_nl] in HS. fold h in HS.
  destruct HS as (((css & EC & H2 & _) & _ & HRun) & _). fold h in HRun, H2. rewrite (runs_at_chunks _ _ _ p HRun).
  apply in_split in Hin as (ps1 & ps2 & Eps). pose proof (group_filter _ _ _ _ H2 (positions_sorted _)) as GF. fold h in GF.
  fold h in H2. rewrite Eps in H2, GF. rewrite EC.
  apply Forall2_app_inv_l in H2 as (c1 & c2 & H21 & H22 & Ecss). inversion H22 as [|? g ? c3 Hg Hn]; subst c2.
  rewrite map_app in GF. cbn [map] in GF.
  assert (EG : filter (atp p) (concat css) = g).
  { rewrite Ecss in GF at 2. rewrite Ecss. apply (f_equal (fun l => nth_error l (length c1))) in GF.
    assert (EL : length (map (fun p0 => filter (atp p0) (concat css)) ps1) = length c1).
    { rewrite map_length. clear -H21. induction H21; cbn; congruence. }
    rewrite nth_error_app2 in GF by lia. rewrite EL, Nat.sub_diag in GF. rewrite nth_error_app2, Nat.sub_diag in GF by lia. cbn [nth_error] in GF. subst css. injection GF; auto. }
  rewrite EG. rewrite !map_map. cbn [run_of r_text r_args]. split; [exact (rg_text _ _ _ _ Hg)|exact (rg_args _ _ _ _ Hg)].
Qed.

(** ** Expressions written apart from each other *)
Lemma add_run_apart h rs w prev : negb (is_empty (written h w)) = true ->
  match prev with None => rs = [] | Some p => exists r l, rs = r :: l /\ r_pos r = p /\ r_text r <> [] /\ p <> w_pos w end ->
  exists pre, add_run h rs w = mkRun (w_pos w) (pre ++ w_expr w) (length (w_args w)) :: rs /\ pre ++ w_expr w <> [].
Proof.
  intros Hw Hp. unfold add_run, written in *. destruct (is_empty (at_pos (w_pos w) h)).
  - unfold first_text in *. eexists (w_kw w ++ _). rewrite <- app_assoc. split; [reflexivity|]. apply negb_true_iff, is_empty_false in Hw. exact Hw.
  - apply negb_true_iff in Hw. rewrite Hw. exists (if existsb (fun x => negb (is_empty (w_expr x))) (at_pos (w_pos w) h) then w_sep w else B " ").
    assert (E : reopen (w_pos w) rs = None).
    { destruct prev as [p|]; [|subst rs; reflexivity]. destruct Hp as (r & l & -> & Hr & Ht & Hn). cbn [reopen]. destruct (Z.eqb_spec (r_pos r) (w_pos w)); [congruence|].
      apply is_empty_false in Ht. rewrite Ht. reflexivity. }
    rewrite E. split; [reflexivity|]. intros X. apply app_eq_nil in X as [_ X]. rewrite X in Hw. discriminate.
Qed.

Lemma runs_apart ws : forall prev h rs,
  apart prev h ws = true ->
  match prev with None => rs = [] | Some p => exists r l, rs = r :: l /\ r_pos r = p /\ r_text r <> [] end ->
  (forall r, In r rs -> In r (runs_from h rs ws)) /\
  forall w, In w ws -> exists pre, In (mkRun (w_pos w) (pre ++ w_expr w) (length (w_args w))) (runs_from h rs ws).
Proof.
  induction ws as [|w ws IH]; intros prev h rs HA Hp; [split; [auto|intros ? []]|].
  cbn [apart] in HA. apply andb_true_iff in HA as [HA A3]. apply andb_true_iff in HA as [A1 A2]. cbn [runs_from].
  destruct (add_run_apart h rs w prev A1) as (pre & E & Hne).
  { destruct prev as [p|]; [|exact Hp]. destruct Hp as (r & l & -> & Hr & Ht). exists r, l. repeat split; auto. apply negb_true_iff, Z.eqb_neq in A2. exact A2. }
  rewrite E. destruct (IH _ _ (mkRun (w_pos w) (pre ++ w_expr w) (length (w_args w)) :: rs) A3) as [I1 I2].
  { eexists _, _. split; [reflexivity|]. split; [reflexivity|exact Hne]. }
  split.
  - intros r Hr. apply I1. right; exact Hr.
  - intros v [<-|Hv]; [|apply I2; exact Hv]. exists pre. apply I1. left; reflexivity.
Qed.
