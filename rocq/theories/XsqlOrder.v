(** Interleaving of calls to different clauses, repeated LIMIT/OFFSET, bulk
    INSERT. *)
From Verif Require Import GoBase GoBaseFacts XsqlModel XsqlSpec XsqlUserSpec XsqlProofs XsqlPg XsqlSim XsqlRender XsqlUser XsqlStatic.
From Coq Require Import ZifyBool ZifyNat Sorted.
Open Scope Z_scope.

(** Either the dialect does not number placeholders or every call is ready for
    the postgres dialect. *)
Definition renderable (d : dialect) (k : ctor) (cs : list bcall) : bool :=
  negb (is_pg d) || (pg_ready_ctor k && forallb pg_ready cs).

Definition shown_hist (d : dialect) (h : list write) : bytes :=
  numbered d (spec_sql h).

Lemma observe_hist r did d k cs : clean r -> d_cache d = [] -> ok_build (d_nl d) k cs = true -> renderable d k cs = true ->
  observe r did d k cs = Some (shown_hist d (s_hist (spec_build (d_nl d) k cs)),
                               spec_args (s_hist (spec_build (d_nl d) k cs)), s_dest (spec_build (d_nl d) k cs)).
Proof.
  intros HC Hd Hok Hr. unfold renderable in Hr. unfold shown_hist, numbered. destruct (is_pg d) eqn:Ep.
  - cbn [negb orb] in Hr. apply andb_true_iff in Hr as [H1 H2].
    apply (observe_pg r did d k cs HC Hd Ep Hok). apply pg_ready_hist; assumption.
  - apply observe_plain; assumption.
Qed.

Lemma observe_ext r did d k cs cs' : clean r -> d_cache d = [] ->
  ok_build (d_nl d) k cs = true -> renderable d k cs = true ->
  ok_build (d_nl d) k cs' = true -> renderable d k cs' = true ->
  spec_text (s_hist (spec_build (d_nl d) k cs)) = spec_text (s_hist (spec_build (d_nl d) k cs')) ->
  spec_args (s_hist (spec_build (d_nl d) k cs)) = spec_args (s_hist (spec_build (d_nl d) k cs')) ->
  s_dest (spec_build (d_nl d) k cs) = s_dest (spec_build (d_nl d) k cs') ->
  observe r did d k cs = observe r did d k cs'.
Proof.
  intros HC Hd O1 R1 O2 R2 ET EA ED. rewrite !observe_hist by assumption. rewrite EA, ED.
  unfold shown_hist, spec_sql. rewrite ET. reflexivity.
Qed.

(** ** Calls that name a clause write to it only, whatever came before *)
Definition em (nl : bool) (c : bcall) : list write := emits (mkS [] 0 nl []) c.

Lemma em_emits s c : has_clause c = true -> emits s c = em (s_nl s) c.
Proof. destruct c; try discriminate; reflexivity. Qed.

Lemma has_clause_nl s c : has_clause c = true -> s_nl (spec_call s c) = s_nl s.
Proof. destruct c; try discriminate; reflexivity. Qed.
Lemma has_clause_dest s c : has_clause c = true -> s_dest (spec_call s c) = s_dest s.
Proof. destruct c; try discriminate; intros _; cbn; apply app_nil_r. Qed.

Lemma clause_hist cs : forall s, forallb has_clause cs = true ->
  s_hist (spec_calls s cs) = s_hist s ++ flat_map (em (s_nl s)) cs /\ s_nl (spec_calls s cs) = s_nl s /\
  s_dest (spec_calls s cs) = s_dest s.
Proof.
  induction cs as [|c cs IH]; intros s H.
  - cbn. rewrite app_nil_r. auto.
  - cbn [forallb] in H. apply andb_true_iff in H as [H1 H2]. unfold spec_calls in *. cbn [fold_left flat_map].
    destruct (IH (spec_call s c) H2) as (E1 & E2 & E3). rewrite E1, E2, E3.
    rewrite has_clause_nl, has_clause_dest by exact H1. split; [|split; reflexivity].
    cbn [spec_call s_hist]. rewrite (em_emits s c H1), <- app_assoc. reflexivity.
Qed.

Definition ranked : list (Z * bytes) :=
  [(200, B "WITH"); (600, B "DELETE FROM"); (700, B "UPDATE"); (900, B "SELECT"); (1100, B "FROM");
   (1200, B "WHERE"); (1300, B "GROUP BY"); (1400, B "HAVING"); (1600, B "ORDER BY"); (1700, B "LIMIT");
   (1800, B "OFFSET"); (1900, B "RETURNING")].

Lemma em_rank nl p : exists cl, forall c, has_clause c = true ->
  at_pos p (em nl c) = if is_clause cl c then em nl c else [].
Proof.
  destruct (in_dec Z.eq_dec p (map fst ranked)) as [H|H].
  - apply in_map_iff in H as ((p' & cl) & <- & H). exists cl. intros c Hc. cbn [fst].
    repeat (destruct H as [H|H]; [injection H as <- <-; destruct c; try discriminate; reflexivity|]). destruct H.
  - exists (B "?"). intros c Hc. unfold at_pos.
    assert (N : forall x, In x (map fst ranked) -> (x =? p) = false).
    { intros x Hx. apply Z.eqb_neq. intros ->. auto. }
    destruct c; try discriminate; cbn [em emits filter w_pos]; rewrite !N by (cbn; tauto); reflexivity.
Qed.

Lemma flat_map_filter {A B} (f : A -> list B) (g : A -> bool) l :
  flat_map (fun c => if g c then f c else []) l = flat_map f (filter g l).
Proof. induction l as [|c l IH]; [reflexivity|]. cbn [flat_map filter]. destruct (g c); cbn [flat_map]; rewrite IH; reflexivity. Qed.

Lemma filter_flat_map {A B} (g : B -> bool) (f : A -> list B) l : filter g (flat_map f l) = flat_map (fun c => filter g (f c)) l.
Proof. induction l as [|c l IH]; [reflexivity|]. cbn [flat_map]. rewrite filter_app, IH. reflexivity. Qed.

Lemma flat_map_in {A B} (f g : A -> list B) l : (forall x, In x l -> f x = g x) -> flat_map f l = flat_map g l.
Proof.
  induction l as [|x l IH]; intros H; [reflexivity|]. cbn [flat_map]. rewrite (H x) by (left; reflexivity).
  rewrite IH; [reflexivity|]. intros y Hy. apply H. right; exact Hy.
Qed.

Lemma at_pos_clauses nl p : exists cl, forall cs, forallb has_clause cs = true ->
  at_pos p (flat_map (em nl) cs) = flat_map (em nl) (filter (is_clause cl) cs).
Proof.
  destruct (em_rank nl p) as [cl H]. exists cl. intros cs Hc. unfold at_pos. rewrite filter_flat_map, <- flat_map_filter.
  apply flat_map_in. intros c Hin. rewrite forallb_forall in Hc. exact (H c (Hc c Hin)).
Qed.

Lemma standard_app a b : forallb standard (a ++ b) = forallb standard a && forallb standard b.
Proof. apply forallb_app. Qed.

Lemma spec_build_app nl k a b : spec_build nl k (a ++ b) = spec_calls (spec_build nl k a) b.
Proof. unfold spec_build, spec_calls. apply fold_left_app. Qed.

Lemma interleave_hist nl k cs0 cs cs' : forallb has_clause cs = true -> forallb has_clause cs' = true ->
  (forall cl, filter (is_clause cl) cs = filter (is_clause cl) cs') ->
  (forall p, at_pos p (s_hist (spec_build nl k (cs0 ++ cs))) = at_pos p (s_hist (spec_build nl k (cs0 ++ cs')))) /\
  s_dest (spec_build nl k (cs0 ++ cs)) = s_dest (spec_build nl k (cs0 ++ cs')).
Proof.
  intros H1 H2 HE. rewrite !spec_build_app. destruct (clause_hist cs (spec_build nl k cs0) H1) as (E1 & _ & D1).
  destruct (clause_hist cs' (spec_build nl k cs0) H2) as (E2 & _ & D2). rewrite E1, E2, D1, D2. split; [|reflexivity].
  intros p. destruct (at_pos_clauses (s_nl (spec_build nl k cs0)) p) as [cl Hcl]. specialize (Hcl cs H1) as A1. specialize (Hcl cs' H2) as A2.
  unfold at_pos in *. rewrite !filter_app, A1, A2, HE. reflexivity.
Qed.

Lemma interleave r did d k cs0 cs cs' : clean r -> d_cache d = [] ->
  ok_build (d_nl d) k (cs0 ++ cs) = true -> renderable d k (cs0 ++ cs) = true ->
  ok_build (d_nl d) k (cs0 ++ cs') = true -> renderable d k (cs0 ++ cs') = true ->
  forallb has_clause cs = true -> forallb has_clause cs' = true ->
  (forall cl, filter (is_clause cl) cs = filter (is_clause cl) cs') ->
  observe r did d k (cs0 ++ cs) = observe r did d k (cs0 ++ cs').
Proof.
  intros HC Hd O1 R1 O2 R2 H1 H2 HE. destruct (interleave_hist (d_nl d) k cs0 cs cs' H1 H2 HE) as [HA HD].
  destruct (at_pos_ext _ _ HA) as (_ & ET & EA). apply observe_ext; assumption.
Qed.

(** ** LIMIT and OFFSET: the last one wins *)
Definition page_call (isOffset : bool) (v : goany) : bcall := if isOffset then COffset v else CLimit v.
Definition prank (o : bool) : Z := if o then 1800 else 1700.
Definition pkw (o : bool) : bytes := if o then B "OFFSET ?" else B "LIMIT ?".
Definition is_page_write (o : bool) (w : write) : Prop :=
  w_expr w = [] /\ length (w_args w) = 1%nat /\ w_pos w = prank o.

Lemma standard_page o s c : standard c = true -> Forall (fun w => w_pos w = prank o -> is_page_write o w) (emits s c).
Proof.
  assert (NR : forall first sets ne, Forall (fun w => w_pos w = prank o -> is_page_write o w) (row_writes first ne sets)).
  { intros first sets. induction sets as [|[[f e] a] sets IH]; intros ne; [constructor|].
    cbn [row_writes]. fold (row_writes first). apply Forall_app; split; [|apply IH].
    destruct first; repeat constructor; cbn [w_pos]; destruct o; discriminate. }
  intros H. destruct c; try discriminate; cbn [emits];
    try (repeat constructor; cbn [w_pos]; destruct o; discriminate).
  - destruct (has_pos 300 _); [|destruct (has_pos 700 _)]; repeat constructor; cbn [w_pos]; destruct o; discriminate.
  - destruct (has_pos 300 _); [|destruct (has_pos 700 _)]; repeat constructor; cbn [w_pos]; destruct o; discriminate.
  - apply Forall_cons; [|constructor]. intros E. split; [reflexivity|]. split; [reflexivity|exact E].
  - apply Forall_cons; [|constructor]. intros E. split; [reflexivity|]. split; [reflexivity|exact E].
  - apply Forall_app; split; [destruct (1 <? page); [|constructor]|];
      (apply Forall_cons; [|constructor]; intros E; split; [reflexivity|]; split; [reflexivity|exact E]).
  - destruct (has_pos 500 _); [constructor|]; [|apply NR|apply NR]. cbn [w_pos]; destruct o; discriminate.
  - apply Forall_forall. intros w Hw. apply in_map_iff in Hw as (x & <- & _). cbn [w_pos]; destruct o; discriminate.
Qed.

Lemma standard_hist o cs : forall s, forallb standard cs = true ->
  Forall (fun w => w_pos w = prank o -> is_page_write o w) (s_hist s) ->
  Forall (fun w => w_pos w = prank o -> is_page_write o w) (s_hist (spec_calls s cs)).
Proof.
  induction cs as [|c cs IH]; intros s H HF; [exact HF|]. cbn [forallb] in H. apply andb_true_iff in H as [H1 H2].
  unfold spec_calls in *. cbn [fold_left]. apply IH; [exact H2|]. cbn [spec_call s_hist]. apply Forall_app. split; [exact HF|].
  apply standard_page; exact H1.
Qed.

Lemma ctor_page o nl k : Forall (fun w => w_pos w = prank o -> is_page_write o w) (s_hist (spec_ctor (init_state nl) k)).
Proof. destruct k; cbn; repeat constructor; cbn [w_pos]; destruct o; discriminate. Qed.

(** A clause made of page writes only. *)
Lemma page_text o w ws : Forall (is_page_write o) (w :: ws) -> clause_text (w :: ws) = w_kw w.
Proof.
  intros HF. inversion HF as [|? ? (E1 & E2 & E3) HF']; subst.
  cbn [clause_text]. unfold first_text. rewrite E1. cbn [is_empty negb orb]. rewrite orb_true_r. cbn [app].
  assert (M : forall has, more_text has ws = []).
  { clear -HF'. induction HF' as [|x ws (F1 & _) HF IH]; intros has; [reflexivity|]. cbn [more_text]. rewrite F1. apply IH. }
  rewrite M. rewrite !app_nil_r. reflexivity.
Qed.
Lemma page_more_args o ws : Forall (is_page_write o) ws -> forall acc, length acc = 1%nat ->
  more_args acc ws = last (acc :: map w_args ws) [].
Proof.
  induction 1 as [|x ws (F1 & F2 & _) HF IH]; intros acc Ha; [reflexivity|]. cbn [more_args]. rewrite F1. cbn [is_empty].
  rewrite (skipn_all2 acc) by lia. rewrite app_nil_r, IH by exact F2. reflexivity.
Qed.
Lemma page_args o w ws : Forall (is_page_write o) (w :: ws) -> clause_args (w :: ws) = last (map w_args (w :: ws)) [].
Proof.
  intros HF. inversion HF as [|? ? (E1 & E2 & E3) HF']; subst. cbn [clause_args map]. apply (page_more_args o); assumption.
Qed.

Lemma last_app_ne {A} (a b : list A) d : b <> [] -> last (a ++ b) d = last b d.
Proof.
  intros H. induction a as [|x a IH]; [reflexivity|]. cbn [app]. destruct (a ++ b) eqn:E; [|exact IH].
  apply app_eq_nil in E as [_ E]. congruence.
Qed.

(** Inserting an earlier page write changes nothing. *)
Lemma page_clause o (w : write) a l : Forall (is_page_write o) (a ++ w :: l) -> l <> [] ->
  (forall x, In x l -> w_kw x = w_kw w) ->
  clause_text (a ++ w :: l) = clause_text (a ++ l) /\ clause_args (a ++ w :: l) = clause_args (a ++ l).
Proof.
  intros HF Hl Hk. assert (HF' : Forall (is_page_write o) (a ++ l)).
  { apply Forall_app in HF as [H1 H2]. inversion H2; subst. apply Forall_app; split; assumption. }
  destruct a as [|x a]; cbn [app] in *.
  - destruct l as [|y l]; [congruence|]. rewrite !(page_text o), !(page_args o) by assumption.
    split; [symmetry; apply Hk; left; reflexivity|]. cbn [map]. reflexivity.
  - rewrite !(page_text o), !(page_args o) by assumption. split; [reflexivity|]. cbn [map]. rewrite !map_app. cbn [map].
    change (w_args x :: map w_args a ++ w_args w :: map w_args l) with ((w_args x :: map w_args a) ++ [w_args w] ++ map w_args l).
    change (w_args x :: map w_args a ++ map w_args l) with ((w_args x :: map w_args a) ++ map w_args l).
    assert (map w_args l <> []) by (destruct l; [congruence|discriminate]).
    rewrite app_assoc, !last_app_ne by assumption. reflexivity.
Qed.

Lemma page_em nl o v : em nl (page_call o v) = [mkWrite (prank o) ((if nl then [ch 10] else []) ++ pkw o) [] [v] []].
Proof. destruct o; reflexivity. Qed.

Lemma page_filter nl o cs : forallb has_clause cs = true ->
  at_pos (prank o) (flat_map (em nl) cs) =
  flat_map (fun c => match c with
                     | CLimit v => if o then [] else em nl c
                     | COffset v => if o then em nl c else []
                     | _ => [] end) cs.
Proof.
  intros H. unfold at_pos. rewrite filter_flat_map. apply flat_map_in. intros c Hc. rewrite forallb_forall in H. specialize (H c Hc).
  destruct c; try discriminate; destruct o; reflexivity.
Qed.

Lemma has_clause_ok nl k cs0 c cs : ok_ctor k = true -> forallb standard (cs0 ++ c :: cs) = true ->
  ok_build nl k (cs0 ++ c :: cs) = true /\ ok_build nl k (cs0 ++ cs) = true.
Proof.
  intros Hk H. split; apply standard_ok; try assumption. rewrite standard_app in *. cbn [forallb] in H.
  rewrite !andb_true_iff in *. tauto.
Qed.

Lemma last_wins r did d k cs0 o v cs : clean r -> d_cache d = [] -> ok_ctor k = true ->
  forallb standard (cs0 ++ page_call o v :: cs) = true -> renderable d k (cs0 ++ page_call o v :: cs) = true ->
  forallb has_clause cs = true -> (exists v', In (page_call o v') cs) ->
  observe r did d k (cs0 ++ page_call o v :: cs) = observe r did d k (cs0 ++ cs).
Proof.
  intros HC Hd Hk Hs Hr Hcl (v' & Hin). destruct (has_clause_ok (d_nl d) k cs0 _ cs Hk Hs) as [O1 O2].
  assert (R2 : renderable d k (cs0 ++ cs) = true).
  { unfold renderable in *. destruct (is_pg d); [|reflexivity]. cbn [negb orb] in *. rewrite !forallb_app in *. cbn [forallb] in Hr.
    rewrite !andb_true_iff in *. tauto. }
  set (nl := d_nl d) in *. set (s0 := spec_build nl k cs0).
  assert (Hc1 : forallb has_clause (page_call o v :: cs) = true) by (cbn [forallb]; rewrite Hcl; destruct o; reflexivity).
  destruct (clause_hist _ s0 Hc1) as (E1 & _ & D1). destruct (clause_hist _ s0 Hcl) as (E2 & _ & D2).
  cbn [flat_map] in E1. rewrite page_em in E1.
  assert (HP : Forall (fun w => w_pos w = prank o -> is_page_write o w) (s_hist s0)).
  { unfold s0, spec_build. apply standard_hist; [|apply ctor_page]. rewrite standard_app in Hs. apply andb_true_iff in Hs; apply Hs. }
  set (w := mkWrite (prank o) ((if s_nl s0 then [ch 10] else []) ++ pkw o) [] [v] []) in *.
  set (F := flat_map (em (s_nl s0)) cs) in *.
  set (h1 := s_hist (spec_calls s0 (page_call o v :: cs))) in *. set (h2 := s_hist (spec_calls s0 cs)) in *.
  assert (AF : Forall (fun x => is_page_write o x /\ w_kw x = w_kw w) (at_pos (prank o) F) /\ at_pos (prank o) F <> []).
  { unfold F. rewrite page_filter by exact Hcl. split.
    - apply Forall_forall. intros x Hx. apply in_flat_map in Hx as (c & Hc & Hx).
      destruct c; try destruct Hx; destruct o; cbn in Hx; try tauto; (destruct Hx as [<-|[]]; split; [split; [|split]; reflexivity|reflexivity]).
    - intros E. assert (Hx : In (mkWrite (prank o) ((if s_nl s0 then [ch 10] else []) ++ pkw o) [] [v'] [])
        (flat_map (fun c => match c with CLimit v => if o then [] else em (s_nl s0) c | COffset v => if o then em (s_nl s0) c else [] | _ => [] end) cs)).
      { apply in_flat_map. exists (page_call o v'). split; [exact Hin|]. destruct o; left; reflexivity. }
      rewrite E in Hx. destruct Hx. }
  destruct AF as [AF AN].
  assert (HT : forall p, clause_text (at_pos p h1) = clause_text (at_pos p h2) /\ clause_args (at_pos p h1) = clause_args (at_pos p h2) /\
                         (at_pos p h1 = [] <-> at_pos p h2 = [])).
  { intros p. rewrite E1, E2. unfold at_pos in *. rewrite !filter_app. cbn [filter app]. change (w_pos w) with (prank o).
    destruct (Z.eqb_spec (prank o) p) as [<-|Hp].
    - cbn [app]. match goal with |- clause_text (?a ++ w :: ?l) = _ /\ _ => destruct (page_clause o w a l) as [T A] end.
      + apply Forall_app. split.
        * apply Forall_forall. intros x Hx. apply filter_In in Hx as [Hx Ex]. rewrite Forall_forall in HP. apply HP; [exact Hx|]. apply Z.eqb_eq; exact Ex.
        * apply Forall_cons; [split; [|split]; reflexivity|]. eapply Forall_impl; [|exact AF]. cbn; tauto.
      + exact AN.
      + intros x Hx. rewrite Forall_forall in AF. apply (AF x Hx).
      + rewrite T, A. split; [reflexivity|]. split; [reflexivity|]. split; intros E.
        * exfalso. apply app_eq_nil in E as [_ E]. discriminate.
        * exfalso. apply app_eq_nil in E as [_ E]. apply AN; exact E.
    - split; [reflexivity|]. split; reflexivity. }
  assert (EP : positions h1 = positions h2).
  { apply sorted_ext; try apply positions_sorted. intros p. rewrite !positions_in. destruct (HT p) as (_ & _ & H). tauto. }
  apply observe_ext; try assumption; rewrite !spec_build_app; fold nl; fold s0; fold h1; fold h2.
  - unfold spec_text. rewrite EP. f_equal. apply map_ext. intros p. apply HT.
  - unfold spec_args. rewrite EP. f_equal. apply map_ext. intros p. apply HT.
  - rewrite D1, D2. reflexivity.
Qed.

(** ** Paginate *)
Definition paginate_calls (page size : Z) : list bcall :=
  (if 1 <? page then [COffset (AInt (i64 ((page - 1) * Z.max 1 size)))] else []) ++ [CLimit (AInt (Z.max 1 size))].

Lemma calls_app a : forall q b, calls q (a ++ b) = (do q1 <- calls q a; calls q1 b).
Proof. induction a as [|c a IH]; intros q b; [reflexivity|]. cbn [app calls]. destruct (call q c); [apply IH|reflexivity]. Qed.

Lemma paginate_call q p n : call q (CPaginate p n) = calls q (paginate_calls p n).
Proof.
  cbn [call]. unfold paginate, paginate_calls.
  replace (if n <? 1 then 1 else n) with (Z.max 1 n) by (destruct (Z.ltb_spec n 1); lia).
  destruct (Z.ltb_spec p 1) as [H|H].
  - replace (1 <? p) with false by lia. cbn [app calls call bind]. change (1 <? 1) with false. cbn [bind].
    destruct (limit q _); reflexivity.
  - destruct (1 <? p) eqn:E; cbn [app calls call bind].
    + destruct (offset q _) as [q1|]; [|reflexivity]. cbn [bind]. destruct (limit q1 _); reflexivity.
    + destruct (limit q _); reflexivity.
Qed.

Lemma paginate_seq q cs1 p n cs2 : calls q (cs1 ++ CPaginate p n :: cs2) = calls q (cs1 ++ paginate_calls p n ++ cs2).
Proof.
  rewrite !calls_app. destruct (calls q cs1) as [q1|]; [|reflexivity]. cbn [bind calls]. rewrite paginate_call.
  rewrite calls_app. reflexivity.
Qed.

Lemma paginate_observe r did d k cs1 p n cs2 :
  observe r did d k (cs1 ++ CPaginate p n :: cs2) = observe r did d k (cs1 ++ paginate_calls p n ++ cs2).
Proof.
  unfold observe, build. destruct (construct _ k) as [q|]; [|reflexivity]. cbn [bind]. rewrite paginate_seq. reflexivity.
Qed.

Lemma paginate_exact p n : 1 < p -> (p - 1) * Z.max 1 n < 2 ^ 63 -> i64 ((p - 1) * Z.max 1 n) = (p - 1) * Z.max 1 n.
Proof. intros H1 H2. unfold i64, wrap_s. rewrite Z.mod_small; nia. Qed.

Lemma paginate_std p n : forallb standard (paginate_calls p n) = true /\ forallb has_clause (paginate_calls p n) = true /\ forallb pg_ready (paginate_calls p n) = true.
Proof. unfold paginate_calls. destruct (1 <? p); repeat split; reflexivity. Qed.

Lemma paginate_replaces r did d k cs0 p1 n1 cs p2 n2 : clean r -> d_cache d = [] -> ok_ctor k = true ->
  forallb standard (cs0 ++ cs) = true -> renderable d k (cs0 ++ cs) = true -> forallb has_clause cs = true ->
  1 < p2 \/ p1 <= 1 ->
  observe r did d k (cs0 ++ CPaginate p1 n1 :: cs ++ [CPaginate p2 n2]) = observe r did d k (cs0 ++ cs ++ [CPaginate p2 n2]).
Proof.
  intros HC Hd Hk Hs Hr Hcl Hp. rewrite paginate_observe.
  replace (cs0 ++ paginate_calls p1 n1 ++ cs ++ [CPaginate p2 n2]) with ((cs0 ++ paginate_calls p1 n1 ++ cs) ++ [CPaginate p2 n2]) by (rewrite <- !app_assoc; reflexivity).
  rewrite paginate_observe.
  replace (cs0 ++ cs ++ [CPaginate p2 n2]) with ((cs0 ++ cs) ++ [CPaginate p2 n2]) by (rewrite <- !app_assoc; reflexivity).
  rewrite paginate_observe. rewrite app_nil_r, <- !app_assoc.
  destruct (paginate_std p1 n1) as (S1 & C1 & G1), (paginate_std p2 n2) as (S2 & C2 & G2).
  assert (Rall : forall x, forallb pg_ready x = true -> renderable d k (cs0 ++ x ++ cs ++ paginate_calls p2 n2) = true).
  { intros x Hx. unfold renderable in *. destruct (is_pg d); [|reflexivity]. cbn [negb orb] in *. rewrite !forallb_app in *.
    rewrite Hx, G2. rewrite !andb_true_iff in *. tauto. }
  assert (Sall : forall x, forallb standard x = true -> forallb standard (cs0 ++ x ++ cs ++ paginate_calls p2 n2) = true).
  { intros x Hx. rewrite !forallb_app in *. rewrite Hx, S2. rewrite !andb_true_iff in *. tauto. }
  assert (HL : In (page_call false (AInt (Z.max 1 n2))) (cs ++ paginate_calls p2 n2)).
  { apply in_or_app; right. apply in_or_app; right. left; reflexivity. }
  assert (Step : observe r did d k (cs0 ++ page_call false (AInt (Z.max 1 n1)) :: cs ++ paginate_calls p2 n2) = observe r did d k (cs0 ++ cs ++ paginate_calls p2 n2)).
  { apply last_wins; try assumption.
    - apply (Sall [CLimit (AInt (Z.max 1 n1))]). reflexivity.
    - apply (Rall [CLimit (AInt (Z.max 1 n1))]). reflexivity.
    - rewrite forallb_app, Hcl, C2. reflexivity.
    - eexists; exact HL. }
  unfold paginate_calls at 1. destruct (1 <? p1) eqn:E1; [|exact Step].
  assert (Hp2 : 1 < p2) by lia.
  rewrite <- Step. cbn [app].
  apply (last_wins r did d k cs0 true _ (CLimit (AInt (Z.max 1 n1)) :: cs ++ paginate_calls p2 n2)); try assumption.
  - apply (Sall [COffset (AInt (i64 ((p1 - 1) * Z.max 1 n1))); CLimit (AInt (Z.max 1 n1))]). reflexivity.
  - apply (Rall [COffset (AInt (i64 ((p1 - 1) * Z.max 1 n1))); CLimit (AInt (Z.max 1 n1))]). reflexivity.
  - cbn [forallb]. rewrite forallb_app, Hcl, C2. reflexivity.
  - exists (AInt (i64 ((p2 - 1) * Z.max 1 n2))). right. apply in_or_app; right. unfold paginate_calls.
    replace (1 <? p2) with true by lia. left; reflexivity.
Qed.
