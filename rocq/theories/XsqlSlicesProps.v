(** C151: the argument lists in memory. *)
From Verif Require Import GoBase GoBaseFacts XsqlModel XsqlProofs XsqlSlices.
From Coq Require Import Lia Arith.
Open Scope Z_scope.

(** What each statement of a program holds, in the order they were made: None if closed. *)
Definition contents {A} (m : mem A) : list (option (list (option A))) := map (option_map (read (m_heap m))) (m_stmts m).

(** ** C151: sharing, growth and recycling of arrays are invisible
    In every program of New, clauses with arguments (given in the call, from a slice of the
    program, from Args() of this or another statement), LIMIT/OFFSET again, Clone, Args and
    Close, for every growth of append and every choice of the pool, each open statement's
    Args() are what lists give. *)
Theorem C151_args : forall A (ops : list (mop A)), all_legal (mkP [] []) ops -> contents (mrun ops) = p_stmts (prun ops).
Proof.
  intros A ops L. pose proof (run_inv ops L) as I. apply list_ext. intros i. unfold contents. rewrite nth_error_map. pose proof (iv_read _ _ I i) as R. pose proof (iv_ns _ _ I) as N. unfold at_slot in R.
  destruct (nth_error (p_stmts (prun ops)) i) as [l|] eqn:E1, (nth_error (m_stmts (mrun ops)) i) as [s|] eqn:E2; cbn [option_map]; [| | |reflexivity].
  - destruct l, s; cbn [option_map]; try contradiction; congruence.
  - exfalso. apply nth_error_None in E2. assert (i < length (p_stmts (prun ops)))%nat by (apply nth_error_Some; congruence). lia.
  - exfalso. apply nth_error_None in E1. assert (i < length (m_stmts (mrun ops)))%nat by (apply nth_error_Some; congruence). lia.
Qed.
(** So they depend neither on the growth of append nor on what the pool returns. *)
Definition blind {A} (o : mop A) : mop A :=
  match o with MNew _ => MNew None | MAdd id s i _ => MAdd id s i 0 | MClone id _ _ => MClone id None 0 | o => o end.
Lemma blind_step {A} (p : pure A) o : pstep p (blind o) = pstep p o. Proof. destruct o; reflexivity. Qed.
Lemma blind_legal {A} (ops : list (mop A)) : forall p, all_legal p ops -> all_legal p (map blind ops).
Proof. induction ops as [|o ops IH]; intros p L; [exact I|]. destruct L as [L1 L2]. cbn [map all_legal]. split; [destruct o; exact L1|]. rewrite blind_step. apply IH, L2. Qed.
Lemma blind_run {A} (ops : list (mop A)) : forall p, fold_left pstep (map blind ops) p = fold_left pstep ops p.
Proof. induction ops as [|o ops IH]; intros p; [reflexivity|]. cbn [map fold_left]. rewrite blind_step. apply IH. Qed.
Theorem C151_independent : forall A (ops ops' : list (mop A)), map blind ops = map blind ops' -> all_legal (mkP [] []) ops -> all_legal (mkP [] []) ops' ->
  contents (mrun ops) = contents (mrun ops').
Proof. intros A ops ops' E L L'. rewrite !C151_args by assumption. unfold prun. rewrite <- (blind_run ops), <- (blind_run ops'), E. reflexivity. Qed.
(** A slice of the program's own is never written to. *)
Theorem C151_callers_slices : forall A (ops : list (mop A)) n xs v, all_legal (mkP [] []) ops ->
  nth_error (p_views (prun ops)) n = Some (None, Some xs) -> nth_error (m_views (mrun ops)) n = Some v -> read (m_heap (mrun ops)) v = xs.
Proof. intros A ops n xs v L E1 E2. apply (iv_view _ _ (run_inv ops L) n None xs v E1 E2). Qed.
Lemma own_kept {A} (o : mop A) (p : pure A) n xs : nth_error (p_views p) n = Some (None, Some xs) -> nth_error (p_views (pstep p o)) n = Some (None, Some xs).
Proof.
  intros E. assert (L : (n < length (p_views p))%nat) by (apply nth_error_Some; congruence).
  destruct o; cbn [pstep p_views]; try exact E.
  - rewrite nth_error_app1 by exact L. exact E.
  - destruct (at_slot (p_stmts p) id); [|exact E]. cbn [p_views]. rewrite nth_error_app1 by exact L. exact E.
  - destruct (at_slot (p_stmts p) id), (src_pure p s); try exact E. cbn [p_views]. rewrite nth_error_map, E. reflexivity.
  - destruct (at_slot (p_stmts p) id), (src_pure p s); try exact E. cbn [p_views]. rewrite nth_error_map, E. reflexivity.
  - destruct (at_slot (p_stmts p) id); exact E.
  - destruct (at_slot (p_stmts p) id); [|exact E]. cbn [p_views]. rewrite nth_error_map, E. reflexivity.
Qed.
Theorem C151_callers_slices_forever : forall A (before after : list (mop A)) xs v, all_legal (mkP [] []) (before ++ MKeep xs :: after) ->
  nth_error (m_views (mrun (before ++ MKeep xs :: after))) (length (p_views (prun before))) = Some v ->
  read (m_heap (mrun (before ++ MKeep xs :: after))) v = xs.
Proof.
  intros A before after xs v L E. apply (C151_callers_slices A _ _ xs v L) in E; [exact E|]. unfold prun. rewrite fold_left_app. cbn [fold_left]. fold (prun before).
  assert (G : forall ops p, nth_error (p_views p) (length (p_views (prun before))) = Some (None, Some xs) -> nth_error (p_views (fold_left pstep ops p)) (length (p_views (prun before))) = Some (None, Some xs)).
  { induction ops as [|o ops IH]; intros p K; [exact K|]. cbn [fold_left]. apply IH, own_kept, K. }
  apply G. cbn [pstep p_views]. rewrite nth_error_app2, Nat.sub_diag by lia. reflexivity.
Qed.
(** What Args() returned keeps its contents until the statement is closed or arguments are
    added or overwritten before the end of the slice. *)
Definition disturbs {A} (id len : nat) (o : mop A) : bool :=
  match o with
  | MAdd i _ index _ | MOver i _ index => (i =? id)%nat && (index <? len)%nat
  | MClose i => (i =? id)%nat
  | _ => false
  end.
Lemma view_kept {A} (o : mop A) (p : pure A) n id xs : nth_error (p_views p) n = Some (Some id, Some xs) -> disturbs id (length xs) o = false ->
  nth_error (p_views (pstep p o)) n = Some (Some id, Some xs).
Proof.
  intros E D. assert (L : (n < length (p_views p))%nat) by (apply nth_error_Some; congruence).
  destruct o; cbn [pstep p_views disturbs] in *; try exact E.
  - rewrite nth_error_app1 by exact L. exact E.
  - destruct (at_slot (p_stmts p) id0); [|exact E]. cbn [p_views]. rewrite nth_error_app1 by exact L. exact E.
  - destruct (at_slot (p_stmts p) id0), (src_pure p s); try exact E. cbn [p_views]. rewrite nth_error_map, E. cbn [option_map lose]. rewrite Nat.eqb_sym, D. reflexivity.
  - destruct (at_slot (p_stmts p) id0), (src_pure p s); try exact E. cbn [p_views]. rewrite nth_error_map, E. cbn [option_map lose]. rewrite Nat.eqb_sym, D. reflexivity.
  - destruct (at_slot (p_stmts p) id0); exact E.
  - destruct (at_slot (p_stmts p) id0); [|exact E]. cbn [p_views]. rewrite nth_error_map, E. cbn [option_map lose_all]. rewrite Nat.eqb_sym, D. reflexivity.
Qed.
Theorem C151_args_slice : forall A (before after : list (mop A)) id xs v, all_legal (mkP [] []) (before ++ MArgs id :: after) ->
  at_slot (p_stmts (prun before)) id = Some xs -> forallb (fun o => negb (disturbs id (length xs) o)) after = true ->
  nth_error (m_views (mrun (before ++ MArgs id :: after))) (length (p_views (prun before))) = Some v ->
  read (m_heap (mrun (before ++ MArgs id :: after))) v = xs.
Proof.
  intros A before after id xs v L Es Q E. enough (K : nth_error (p_views (prun (before ++ MArgs id :: after))) (length (p_views (prun before))) = Some (Some id, Some xs)) by (apply (iv_view _ _ (run_inv _ L) _ (Some id) xs v K E)).
  unfold prun. rewrite fold_left_app. cbn [fold_left]. fold (prun before).
  assert (G : forall ops p, forallb (fun o => negb (disturbs id (length xs) o)) ops = true -> nth_error (p_views p) (length (p_views (prun before))) = Some (Some id, Some xs) -> nth_error (p_views (fold_left pstep ops p)) (length (p_views (prun before))) = Some (Some id, Some xs)).
  { induction ops as [|o ops IH]; intros p Qo K; [exact K|]. cbn [forallb] in Qo. apply andb_true_iff in Qo. destruct Qo as [Q1 Q2]. cbn [fold_left]. apply IH; [exact Q2|]. apply view_kept; [exact K|]. apply negb_true_iff, Q1. }
  apply (G after _ Q). cbn [pstep]. rewrite Es. cbn [p_views]. rewrite nth_error_app2, Nat.sub_diag by lia. reflexivity.
Qed.
(** The calls of XsqlModel do nothing else to the argument list: they splice the
    arguments in at a place within it, or overwrite from such a place. *)
Lemma insert_at_spliced {A} (d s r : list A) i : i <= Z.of_nat (length d) -> insert_at d s i = Some r -> exists k, (k <= length d)%nat /\ r = spliced d s k.
Proof.
  intros L H. destruct s as [|x s].
  - injection H as <-. exists 0%nat. split; [lia|]. reflexivity.
  - destruct (Z.ltb_spec i 0) as [N|N].
    + exfalso. unfold insert_at in H. destruct (Z.ltb_spec i (Z.of_nat (length d))); [|lia]. destruct (Z.ltb_spec i 0); [discriminate|lia].
    + exists (Z.to_nat i). split; [lia|]. rewrite <- (firstn_skipn (Z.to_nat i) d) in H at 1. assert (E : i = Z.of_nat (length (firstn (Z.to_nat i) d))) by (rewrite firstn_length; lia).
      rewrite E in H at 3. rewrite insert_at_app in H. injection H as <-. reflexivity.
Qed.
Theorem C151_calls : forall q pos clause expr args sep q' n, add_chunk q pos clause expr args sep = Some (q', n) ->
  exists k, (k <= length (st_args q))%nat /\ (st_args q' = spliced (st_args q) args k \/ st_args q' = overwritten (st_args q) args k).
Proof.
  intros q pos clause expr args sep q' n.
  assert (F : forall q1 tail i, st_args q1 = st_args q -> finish_chunk q1 args tail i = Some (q', n) -> exists k, (k <= length (st_args q))%nat /\ (st_args q' = spliced (st_args q) args k \/ st_args q' = overwritten (st_args q) args k)).
  { intros q1 tail i Ea. unfold finish_chunk. rewrite Ea. destruct args as [|x args0] eqn:E.
    - intros [= <- _]. exists 0%nat. split; [lia|]. left. unfold spliced. cbn [firstn skipn app]. exact Ea.
    - rewrite <- E. destruct (insert_at (st_args q) args _) as [a|] eqn:Ei; [|discriminate]. intros [= <- _]. apply insert_at_spliced in Ei; [|lia]. destruct Ei as (k & K & ->). exists k. split; [exact K|]. left. reflexivity. }
  unfold add_chunk. cbn [st_chunks set_pos]. destruct (scan pos (rev (st_chunks q)) 0) as [i tail|i tail].
  - destruct (nth_error (st_chunks q) i) as [c|]; [|discriminate]. destruct (is_empty expr).
    + destruct (Nat.ltb_spec 0 (length args)) as [La|La].
      * cbv zeta. destruct (Z.ltb_spec (Z.of_nat (length (st_args (set_pos q pos))) - Z.of_nat tail - Z.of_nat (ck_argLen c)) 0) as [|N]; [discriminate|]. intros [= <- _].
        eexists. split; [|right; cbn [st_args set_args set_pos]; reflexivity]. cbn [st_args set_pos] in *. lia.
      * intros [= <- _]. exists 0%nat. split; [lia|]. left. destruct args; [|cbn [length] in La; lia]. reflexivity.
    + destruct (ck_high c =? _)%nat; apply F; reflexivity.
  - apply F. destruct (is_empty clause); reflexivity.
Qed.
(** ** The exception
    Part of a statement's own Args() that starts behind the place of insertion is
    overwritten while it is copied, if the array has room: q.Select("?, ?", q.Args()[1:]...)
    after three arguments in WHERE gives other arguments than it was given. *)
Definition ex_heap : heap nat := [[Some 1%nat; Some 2%nat; Some 3%nat; None; None; None]].
Definition ex_q : slice := mkS 0 0 3.
Theorem C151_own_tail_refuted : exists g g' (h h' : heap nat) (q q' : slice),
  read h q = read h' q' /\ valid h q /\ valid h' q' /\
  (let '(hr, r) := insert_mem g h q (from q 1) 0 in read hr r) = [Some 2; Some 1; Some 1; Some 2; Some 3]%nat /\
  (let '(hr, r) := insert_mem g' h' q' (from q' 1) 0 in read hr r) = [Some 2; Some 3; Some 1; Some 2; Some 3]%nat.
Proof. exists 0%nat, 0%nat, ex_heap, [[Some 1; Some 2; Some 3]]%nat, ex_q, ex_q. repeat split; try reflexivity; cbn; lia. Qed.
(** Anywhere else in its own arguments, or in any other array, it is inserted as given. *)
Theorem C151_insert : forall A g (h : heap A) dst src index h' d, valid h dst -> valid h src -> (index <= s_len dst)%nat ->
  s_arr src <> s_arr dst \/ (s_off src <= s_off dst + index /\ s_off src + s_len src <= s_off dst + s_len dst)%nat ->
  insert_mem g h dst src index = (h', d) -> read h' d = firstn index (read h dst) ++ read h src ++ skipn index (read h dst).
Proof. intros A g h dst src index h' d Vd Vs L So E. apply (insert_spec g h dst src index h' d Vd Vs L So E). Qed.

(** A program with two statements, one in the other's array after it was closed. *)
Definition ex_ops : list (mop nat) :=
  [MNew None; MAdd 0 (Lit [Some 1; Some 2]) 0 3; MKeep [Some 7; Some 8]; MAdd 0 (Kept 0) 1 0; MArgs 0; MClone 0 None 2; MAdd 0 (ArgsOf 0) 4 0; MAdd 1 (ArgsOf 0) 2 1;
   MOver 1 (Lit [Some 5]) 1; MAdd 1 (Kept 1) 0 4; MClose 0; MNew (Some 0); MAdd 2 (ArgsOf 1) 0 0]%nat.
Example C151_ex_legal : all_legal (mkP [] []) ex_ops.
Proof. cbn. repeat split; try discriminate; eexists; (split; [reflexivity|cbn; lia]). Qed.
Example C151_ex : contents (mrun ex_ops) = let l := map Some [1; 7; 8; 2; 1; 5; 1; 7; 8; 2; 1; 7; 8; 2; 8; 2]%nat in [None; Some l; Some l].
Proof. reflexivity. Qed.
Example C151_ex_recycled : map (option_map s_arr) (m_stmts (mrun ex_ops)) = [None; Some 9; Some 10]%nat /\ m_pool (mrun ex_ops) = [None].
Proof. split; reflexivity. Qed.

(** ** Assumptions *)
Print Assumptions C151_args.
Print Assumptions C151_independent.
Print Assumptions C151_callers_slices.
Print Assumptions C151_callers_slices_forever.
Print Assumptions C151_args_slice.
Print Assumptions C151_calls.
Print Assumptions C151_own_tail_refuted.
Print Assumptions C151_insert.
