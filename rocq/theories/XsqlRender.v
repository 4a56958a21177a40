(** Whole statements: construction, rendering in both dialect families. *)
From Verif Require Import GoBase GoBaseFacts XsqlModel XsqlSpec XsqlProofs XsqlPg XsqlSim.
From Coq Require Import ZifyBool ZifyNat Sorted.
Open Scope Z_scope.

(** An object the pool may hand out: reuseStmt has emptied it. *)
Definition clean (r : stmt) : Prop := st_chunks r = [] /\ st_args r = [] /\ st_dest r = [].

Lemma Frame_sql q q' : Frame q q' -> st_sql q = [] -> st_sql q' = [].
Proof. intros (_ & [H|(H & _)] & _) E; congruence. Qed.

Lemma calls_sim cs : forall q s, Sim q s -> ok_calls s cs = true ->
  exists q', calls q cs = Some q' /\ Sim q' (spec_calls s cs) /\ Frame q q' /\
             st_name q' = fold_left (fun n c => name_after c n) cs (st_name q).
Proof.
  induction cs as [|c cs IH]; intros q s HS Hok.
  - exists q. split; [reflexivity|]. split; [exact HS|]. split; [apply Frame_refl|reflexivity].
  - cbn [ok_calls] in Hok. apply andb_true_iff in Hok as [O1 O2].
    destruct (call_sim q s c HS O1) as (q1 & E1 & S1 & F1 & N1).
    destruct (IH q1 _ S1 O2) as (q2 & E2 & S2 & F2 & N2).
    exists q2. cbn [calls]. rewrite E1. cbn [bind]. split; [exact E2|]. split; [exact S2|].
    split; [eapply Frame_trans; eassumption|]. cbn [fold_left]. rewrite <- N1. exact N2.
Qed.

Lemma Rep_nil : Rep [] [] [] [].
Proof. exists []. split; [reflexivity|]. split; [constructor|reflexivity]. Qed.

Lemma get_stmt_sim r did d : clean r -> Sim (get_stmt r did d) (mkS [] (st_pos r) (d_nl d) []).
Proof.
  intros (C1 & C2 & C3). unfold Sim, get_stmt; cbn. rewrite C1, C2, C3.
  split; [|auto]. split; [exact Rep_nil|]. split; [intros; constructor|exact XsqlRuns.Runs_nil].
Qed.

Lemma spec_ctor_cur p nl k : spec_ctor (mkS [] p nl []) k = spec_ctor (init_state nl) k.
Proof. destruct k; reflexivity. Qed.

Lemma construct_sim q p nl k : Sim q (mkS [] p nl []) -> ok_ctor k = true ->
  exists q', construct q k = Some q' /\ Sim q' (spec_ctor (init_state nl) k) /\ Frame q q' /\ st_name q' = st_name q.
Proof.
  intros HS Hok. rewrite <- (spec_ctor_cur p).
  assert (Hc : forall c, ok_call (mkS [] p nl []) c = true -> name_after c (st_name q) = st_name q ->
     exists q', call q c = Some q' /\ Sim q' (spec_call (mkS [] p nl []) c) /\ Frame q q' /\ st_name q' = st_name q).
  { intros c Hc Hn. destruct (call_sim q _ c HS Hc) as (q' & E & S' & F & N). exists q'. rewrite Hn in N. auto. }
  assert (Hea : forall e (a : list goany), is_empty a || negb (is_empty e) = true ->
     forall pos kw sep, ok_writes [] [mkWrite pos kw e a sep] = true).
  { intros e a H pos kw sep. unfold ok_writes, ok_write. cbn [w_args w_expr w_pos at_pos filter]. rewrite orb_true_r. reflexivity. }
  destruct k; cbn [construct spec_ctor ok_ctor] in *.
  - destruct (addc_sim q (mkS [] p nl []) posSelect verb [] a (B ", ") HS) as (q' & E & S' & F & N).
    { unfold ok_write. cbn. rewrite !orb_true_r. reflexivity. }
    exists q'. auto.
  - apply Hc; [|reflexivity]. destruct name; unfold ok_call, ok_writes, ok_write; cbn; rewrite ?orb_true_r; reflexivity.
  - apply Hc; [|reflexivity]. unfold ok_call, emits. rewrite Hea by exact Hok. reflexivity.
  - apply Hc; [|reflexivity]. unfold ok_call, emits. rewrite Hea by exact Hok. reflexivity.
  - apply Hc; reflexivity.
  - apply Hc; reflexivity.
  - apply Hc; reflexivity.
Qed.

Lemma build_sim r did d k cs : clean r -> ok_build (d_nl d) k cs = true ->
  exists q, build r did d k cs = Some q /\ Sim q (spec_build (d_nl d) k cs) /\
    st_sql q = [] /\ st_dialect q = did /\
    st_name q = fold_left (fun n c => name_after c n) cs [].
Proof.
  intros HC Hok. unfold ok_build in Hok. apply andb_true_iff in Hok as [O1 O2].
  destruct (construct_sim _ _ _ k (get_stmt_sim r did d HC) O1) as (q1 & E1 & S1 & F1 & N1).
  destruct (calls_sim cs q1 _ S1 O2) as (q2 & E2 & S2 & F2 & N2).
  exists q2. unfold build. rewrite E1. cbn [bind]. split; [exact E2|]. split; [exact S2|].
  pose proof (Frame_trans _ _ _ F1 F2) as F. split; [exact (Frame_sql _ _ F eq_refl)|].
  split; [apply F|]. rewrite N2, N1. reflexivity.
Qed.

(** ** Rendering without numbering *)
Lemma render_loop_out pg buf cs : forall first pos k out,
  render_loop pg buf first pos k cs out =
  match render_loop pg buf first pos k cs [] with None => None | Some t => Some (out ++ t) end.
Proof.
  assert (W : forall k s out, write_pg k s out = (fst (write_pg k s []), out ++ snd (write_pg k s []))).
  { intros k s out. unfold write_pg.
    assert (L : forall rest p st n o x, pg_loop s rest p st n (o ++ x) =
              (let '(a, b, c) := pg_loop s rest p st n x in (a, b, o ++ c))).
    { induction rest as [|r rest IH]; intros p st n o x; cbn [pg_loop]; [reflexivity|].
      destruct (p <? st)%nat; [apply IH|]. destruct (ascii_dec r c_bs).
      - destruct rest as [|r2 rest']; [apply IH|]. destruct (ascii_dec r2 c_qm); [|apply IH].
        rewrite <- (app_assoc o). apply IH.
      - destruct (ascii_dec r c_qm); [|apply IH]. rewrite <- (app_assoc o). apply IH. }
    pose proof (L s 0%nat 0%nat k out []) as E. rewrite app_nil_r in E. rewrite E.
    destruct (pg_loop s s 0 0 k []) as [[st n] o]. cbn [fst snd].
    destruct (st <? length s)%nat; [rewrite app_assoc|]; reflexivity. }
  induction cs as [|c cs IH]; intros first pos k out; cbn [render_loop]; [rewrite app_nil_r; reflexivity|].
  destruct (slice buf (ck_low c) (ck_high c)) as [s|]; [|reflexivity].
  match goal with |- context[if (0 <? ck_argLen c)%nat && pg then let '(_, _) := write_pg k s ?x in _ else _] =>
    set (o1 := x) end.
  match goal with |- _ = match (if (0 <? ck_argLen c)%nat && pg then let '(_, _) := write_pg k s ?x in _ else _) with _ => _ end =>
    set (o2 := x) end.
  assert (Eo : o1 = out ++ o2).
  { unfold o1, o2. destruct (negb first && (pos <? ck_pos c)); [reflexivity|symmetry; apply app_nil_r]. }
  clearbody o1 o2. subst o1.
  destruct ((0 <? ck_argLen c)%nat && pg).
  - rewrite (W k s (out ++ o2)), (W k s o2).
    rewrite IH, (IH _ _ _ (o2 ++ _)).
    destruct (render_loop pg buf false (ck_pos c) _ cs []); [|reflexivity]. rewrite <- !app_assoc. reflexivity.
  - rewrite IH, (IH _ _ _ (o2 ++ _)).
    destruct (render_loop pg buf false (ck_pos c) k cs []); [|reflexivity]. rewrite <- !app_assoc. reflexivity.
Qed.

Lemma render_same buf p k rest cs : Forall (fun c => ck_pos c = p) cs -> Forall (valid buf) cs ->
  forall out, render_loop false buf false p k (cs ++ rest) out =
              render_loop false buf false p k rest (out ++ concat (map (sl buf) cs)).
Proof.
  induction cs as [|c cs IH]; intros HP HV out; [cbn; rewrite app_nil_r; reflexivity|].
  inversion HP; inversion HV; subst. cbn [app render_loop].
  rewrite Z.ltb_irrefl. cbn [negb andb]. rewrite slice_sl by assumption. rewrite andb_false_r.
  rewrite IH by assumption. cbn [map concat]. rewrite <- app_assoc. reflexivity.
Qed.

Lemma render_groups buf h ps css k :
  Forall2 (fun p cs => repg buf p (at_pos p h) cs) ps css -> StronglySorted Z.lt ps ->
  forall first pos out, (first = true \/ Forall (Z.lt pos) ps) ->
  render_loop false buf first pos k (concat css) out =
  Some (out ++ (if first || is_empty ps then [] else B " ") ++
        join (B " ") (map (fun p => clause_text (at_pos p h)) ps)).
Proof.
  induction 1 as [|p cs ps css H1 H2 IH]; intros HS first pos out Hf.
  - cbn. rewrite orb_true_r, app_nil_r. reflexivity.
  - inversion HS as [|? ? HS' HF]; subst. cbn [concat map is_empty]. rewrite orb_false_r.
    pose proof (rg_ne _ _ _ _ H1) as Hne. pose proof (rg_pos _ _ _ _ H1) as Hp.
    pose proof (rg_valid _ _ _ _ H1) as Hv. pose proof (rg_text _ _ _ _ H1) as Ht.
    destruct cs as [|c cs]; [congruence|]. inversion Hp as [|? ? Hp1 Hp2]; inversion Hv as [|? ? Hv1 Hv2]; subst.
    cbn [app render_loop]. rewrite slice_sl by assumption. rewrite andb_false_r.
    rewrite render_same by assumption. rewrite IH by (auto).
    replace (if negb first && (pos <? ck_pos c) then out ++ B " " else out) with (out ++ (if first then [] else B " ")).
    2: { destruct first; cbn [negb andb]; [apply app_nil_r|]. destruct Hf as [Hf|Hf]; [discriminate|].
         inversion Hf; subst. destruct (Z.ltb_spec pos (ck_pos c)); [reflexivity|lia]. }
    rewrite <- Ht. cbn [map concat]. rewrite <- !app_assoc. cbn [orb]. do 2 f_equal. 
    destruct ps as [|p2 ps]; [cbn; rewrite !app_nil_r; reflexivity|].
    rewrite join_cons by discriminate. cbn [is_empty]. rewrite <- !app_assoc. reflexivity.
Qed.

Lemma render_plain q s : Sim q s -> render false q = Some (spec_sql (s_hist s)).
Proof.
  intros (((css & E & H2 & _) & _) & _). unfold render. rewrite E.
  rewrite (render_groups _ _ _ _ _ H2 (positions_sorted _)) by (left; reflexivity).
  reflexivity.
Qed.

(** ** Rendering with numbering *)
Lemma render_pg_loop buf cs : Forall (valid buf) cs -> Forall (pgck buf) cs ->
  forall first pos k k0, 0 <= k ->
  exists t, render_loop false buf first pos k0 cs [] = Some t /\
    render_loop true buf first pos k cs [] = Some (snd (pg_number k t)) /\
    placeholders t = sum_args cs.
Proof.
  induction cs as [|c cs IH]; intros HV HP first pos k k0 Hk.
  - exists []. repeat split; reflexivity.
  - inversion HV as [|? ? V1 V2]; inversion HP as [|? ? P1 P2]; subst. cbn [render_loop].
    rewrite slice_sl by assumption. rewrite andb_false_r, andb_true_r. cbn [app].
    set (sp := if negb first && (pos <? ck_pos c) then _ else _).
    assert (Hsp : no_qm sp /\ ends_bs sp = false).
    { unfold sp. destruct (negb first && (pos <? ck_pos c)); (split; [|reflexivity]);
        [intros [X|[]]; discriminate|intros []]. }
    destruct Hsp as [S1 S2]. destruct P1 as (C1 & C2 & C3).
    destruct (IH V2 P2 false (ck_pos c) (k + Z.of_nat (ck_argLen c)) k0 ltac:(lia)) as (t & E1 & E2 & E3).
    exists (sp ++ sl buf c ++ t). rewrite (render_loop_out false), E1, <- app_assoc. split; [reflexivity|].
    assert (En : pg_number k (sp ++ sl buf c ++ t) =
      (fst (pg_number (k + Z.of_nat (ck_argLen c)) t), sp ++ snd (pg_number k (sl buf c)) ++ snd (pg_number (k + Z.of_nat (ck_argLen c)) t))).
    { rewrite pg_number_app by (left; exact S2). rewrite (pg_number_noqm sp) by exact S1. cbn [fst snd].
      rewrite pg_number_app by (left; exact C3). cbn [fst snd]. rewrite (pg_number_fst (sl buf c)), C2. reflexivity. }
    split.
    + rewrite En. cbn [snd]. destruct (Nat.ltb_spec 0 (ck_argLen c)) as [Ha|Ha].
      * rewrite write_pg_spec by exact Hk. rewrite (pg_number_fst (sl buf c)), C2, (render_loop_out true), E2, <- app_assoc. reflexivity.
      * assert (Ea : ck_argLen c = 0%nat) by lia. rewrite Ea in *. rewrite Z.add_0_r in *.
        rewrite (render_loop_out true), E2, (pg_number_noqm (sl buf c)) by auto. cbn [snd]. rewrite <- app_assoc. reflexivity.
    + rewrite placeholders_app by (left; exact S2). rewrite placeholders_app by (left; exact C3).
      rewrite (placeholders_noqm sp) by exact S1. rewrite C2, E3. reflexivity.
Qed.

(** trim *)
Definition ws (c : ascii) : bool := in_set sql_ws c.

Lemma trim_right_app_in cs s p : Forall (fun c => in_set cs c = true) p -> trim_right cs (s ++ p) = trim_right cs s.
Proof.
  intros H. unfold trim_right. rewrite rev_app_distr, trim_left_app_in; [reflexivity|].
  apply Forall_rev. exact H.
Qed.
Lemma trim_right_last cs s c : in_set cs c = false -> trim_right cs (s ++ [c]) = s ++ [c].
Proof.
  intros H. unfold trim_right. rewrite rev_app_distr. cbn [rev app]. rewrite trim_left_head by exact H.
  cbn [rev]. rewrite rev_involutive. reflexivity.
Qed.

(** A trimmed text: empty, or with non-blank first and last characters. *)
Definition bare (cs m : bytes) : Prop :=
  m = [] \/ ((exists c r, m = c :: r /\ in_set cs c = false) /\ (exists r c, m = r ++ [c] /\ in_set cs c = false)).

Lemma trim_bare cs l m r : Forall (fun c => in_set cs c = true) l -> Forall (fun c => in_set cs c = true) r ->
  bare cs m -> trim cs (l ++ m ++ r) = m.
Proof.
  intros Hl Hr Hm. unfold trim. rewrite trim_left_app_in by exact Hl.
  destruct Hm as [->|((c & x & E1 & H1) & (y & d & E2 & H2))].
  - cbn [app]. rewrite <- (app_nil_r r). rewrite trim_left_app_in by exact Hr. reflexivity.
  - rewrite E1. cbn [app]. rewrite trim_left_head by exact H1.
    change (c :: x ++ r) with ((c :: x) ++ r). rewrite trim_right_app_in by exact Hr.
    rewrite <- E1, E2. apply trim_right_last. exact H2.
Qed.

Lemma trim_left_bare_head cs s : trim_left cs s = [] \/ exists c r, trim_left cs s = c :: r /\ in_set cs c = false.
Proof.
  induction s as [|c s IH]; [left; reflexivity|]. cbn [trim_left]. destruct (in_set cs c) eqn:E; [exact IH|].
  right. exists c, s. auto.
Qed.

Lemma trim_decomp cs s : exists l r, s = l ++ trim cs s ++ r /\
  Forall (fun c => in_set cs c = true) l /\ Forall (fun c => in_set cs c = true) r /\ bare cs (trim cs s).
Proof.
  destruct (trim_left_split cs s) as (l & E1 & F1).
  destruct (trim_left_split cs (rev (trim_left cs s))) as (p & E2 & F2).
  exists l, (rev p). unfold trim, trim_right.
  assert (E3 : trim_left cs s = rev (trim_left cs (rev (trim_left cs s))) ++ rev p).
  { rewrite <- rev_app_distr, <- E2, rev_involutive. reflexivity. }
  split; [rewrite <- E3; exact E1|]. split; [exact F1|]. split; [apply Forall_rev; exact F2|].
  destruct (trim_left_bare_head cs (rev (trim_left cs s))) as [E|(c & r & E & Hc)].
  - left. rewrite E. reflexivity.
  - right. split.
    + destruct (trim_left_bare_head cs s) as [E0|(c0 & r0 & E0 & Hc0)]; [rewrite E0 in E; discriminate|].
      rewrite E0 in E3 at 1. rewrite E in E3 |- *. cbn [rev] in E3 |- *.
      destruct (rev r ++ [c]) as [|x y] eqn:Ex; [destruct (rev r); discriminate|].
      injection E3 as <- _. exists c0, y. auto.
    + exists (rev r), c. rewrite E. cbn [rev]. auto.
Qed.

Lemma ws_noqm l : Forall (fun c => in_set sql_ws c = true) l -> no_qm l.
Proof. intros H X. rewrite Forall_forall in H. specialize (H _ X). discriminate. Qed.

Lemma ws_ends l : Forall (fun c => in_set sql_ws c = true) l -> ends_bs l = false.
Proof.
  intros H. apply not_true_iff_false. intros X. apply has_suffix_spec in X as (r & ->).
  apply Forall_app in H as [_ H]. inversion H as [|? ? H1 _]; subst. discriminate.
Qed.

Lemma digit_not_ws d : 0 <= d < 10 -> in_set sql_ws (digit_char d) = false.
Proof.
  intros H. assert (D : d = 0 \/ d = 1 \/ d = 2 \/ d = 3 \/ d = 4 \/ d = 5 \/ d = 6 \/ d = 7 \/ d = 8 \/ d = 9) by lia.
  destruct D as [->|[->|[->|[->|[->|[->|[->|[->|[->| -> ]]]]]]]]]; reflexivity.
Qed.

Lemma pg_number_bare m k : 0 <= k -> bare sql_ws m -> bare sql_ws (snd (pg_number k m)).
Proof.
  intros Hk [->|((c & r & E1 & H1) & (r2 & d & E2 & H2))]; [left; reflexivity|]. right. split.
  - rewrite E1. destruct (pg_cases c r) as [(r' & -> & ->)|[->|HP]].
    + rewrite pg_number_esc. cbn [snd]. eexists _, _. split; [reflexivity|reflexivity].
    + rewrite pg_number_qm. cbn [snd app]. eexists _, _. split; [reflexivity|reflexivity].
    + rewrite pg_number_plain by exact HP. cbn [snd]. eexists _, _. split; [reflexivity|exact H1].
  - rewrite E2. destruct (ascii_dec d c_qm) as [->|Hd].
    + destruct (ends_bs r2) eqn:Eb.
      * apply has_suffix_spec in Eb as (x & ->). rewrite <- app_assoc. cbn [app].
        rewrite pg_number_app by (right; exact bs_ne_qm). cbn [snd]. rewrite pg_number_esc. cbn [snd].
        eexists _, c_qm. split; [reflexivity|reflexivity].
      * rewrite pg_number_app by (left; exact Eb). cbn [snd]. rewrite pg_number_qm. cbn [snd pg_number]. rewrite app_nil_r.
        set (n := fst (pg_number k r2)). assert (Hn : 0 <= n) by (unfold n; rewrite pg_number_fst; lia).
        pose proof (fmt_uint_chars 10 n ltac:(lia) Hn) as HF.
        destruct (last_split (fmt_uint 10 n) (fmt_uint_nonempty 10 n ltac:(lia) Hn)) as (a & x & Ea).
        rewrite Ea in HF |- *. apply Forall_app in HF as [_ HF]. inversion HF as [|? ? HD _]; subst. destruct HD as (dd & Hdd & ->).
        exists (snd (pg_number k r2) ++ [c_dollar] ++ a), (digit_char dd). split; [rewrite <- !app_assoc; reflexivity|].
        apply digit_not_ws; exact Hdd.
    + rewrite pg_number_app by (right; exact Hd). cbn [snd].
      rewrite pg_number_plain by (split; [exact Hd|intros; exact I]). cbn [snd pg_number].
      eexists _, d. split; [reflexivity|exact H2].
Qed.

Lemma trim_pg t k : 0 <= k -> trim sql_ws (snd (pg_number k t)) = snd (pg_number k (trim sql_ws t)) /\
  placeholders (trim sql_ws t) = placeholders t.
Proof.
  intros Hk. destruct (trim_decomp sql_ws t) as (l & r & E & Hl & Hr & Hb).
  assert (Hrj : safe_join (trim sql_ws t) r).
  { right. destruct r as [|c r]; [exact I|]. intros ->. apply (ws_noqm _ Hr). left; reflexivity. }
  split.
  - rewrite E at 1. rewrite pg_number_app by (left; apply ws_ends; exact Hl).
    rewrite (pg_number_noqm l) by (apply ws_noqm; exact Hl). cbn [fst snd].
    rewrite pg_number_app by exact Hrj. cbn [fst snd].
    rewrite (pg_number_noqm r) by (apply ws_noqm; exact Hr). cbn [snd].
    apply trim_bare; [exact Hl|exact Hr|]. apply pg_number_bare; assumption.
  - rewrite E at 2. rewrite placeholders_app by (left; apply ws_ends; exact Hl).
    rewrite placeholders_app by exact Hrj.
    rewrite (placeholders_noqm l), (placeholders_noqm r) by (apply ws_noqm; assumption). lia.
Qed.

Lemma Rep_sum_args buf cs args h : Rep buf cs args h -> sum_args cs = length args.
Proof. intros (css & -> & H2 & ->). exact (forall2_args _ _ _ _ H2). Qed.

Lemma render_pg q s : Sim q s -> pg_hist [] (s_hist s) = true ->
  render true q = Some (snd (pg_number 1 (spec_sql (s_hist s)))) /\
  placeholders (spec_sql (s_hist s)) = length (st_args q).
Proof.
  intros HS Hpg. pose proof (render_plain q s HS) as ER.
  destruct HS as ((HR & HP & _) & _). specialize (HP Hpg). pose proof (Rep_valid _ _ _ _ HR) as HV.
  destruct (render_pg_loop _ _ HV HP true 0 1 1 ltac:(lia)) as (t & E1 & E2 & E3).
  unfold render in ER |- *. rewrite E1 in ER. injection ER as ER. rewrite E2.
  destruct (trim_pg t 1 ltac:(lia)) as [T1 T2].
  rewrite T1, ER. split; [reflexivity|]. rewrite <- ER, T2, E3. eapply Rep_sum_args; exact HR.
Qed.
