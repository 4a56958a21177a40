(** The chunks of a statement are its runs. *)
From Verif Require Import GoBase GoBaseFacts XsqlModel XsqlSpec XsqlRunSpec XsqlProofs XsqlPg.
From Coq Require Import ZifyBool ZifyNat Sorted.
Open Scope Z_scope.

Lemma runs_from_snoc ws : forall h rs w, runs_from h rs (ws ++ [w]) = add_run (h ++ ws) (runs_from h rs ws) w.
Proof.
  induction ws as [|v ws IH]; intros h rs w; cbn [app runs_from]; [rewrite app_nil_r; reflexivity|].
  rewrite IH, <- app_assoc. reflexivity.
Qed.
Lemma runs_snoc h w : runs (h ++ [w]) = add_run h (runs h) w.
Proof. unfold runs. rewrite runs_from_snoc. reflexivity. Qed.

Definition run_of (buf : bytes) (c : chunk) : run := mkRun (ck_pos c) (sl buf c) (ck_argLen c).
Definition atp (p : Z) (c : chunk) : bool := ck_pos c =? p.

(** Latest first: the chunks that end at the end of the buffer. *)
Fixpoint opened (buf : bytes) (L : list chunk) : Prop :=
  match L with
  | [] => True
  | c :: r => ck_high c = length buf /\
              if is_empty (sl buf c) then opened buf r
              else Forall (fun x => (ck_high x < length buf)%nat) r
  end.

Definition Runs (buf : bytes) (cs : list chunk) (h : list write) : Prop :=
  exists L, map (run_of buf) L = runs h /\
    (forall p, filter (atp p) (rev cs) = filter (atp p) L) /\
    opened buf L /\ Forall (valid buf) L.

Lemma map_run_grow buf x L : Forall (valid buf) L -> map (run_of (buf ++ x)) L = map (run_of buf) L.
Proof.
  intros H. apply map_ext_in. intros c Hc. rewrite Forall_forall in H. unfold run_of. rewrite sl_grow by auto. reflexivity.
Qed.
Lemma valid_grow_all buf x L : Forall (valid buf) L -> Forall (valid (buf ++ x)) L.
Proof. apply Forall_impl. intros; apply valid_grow; assumption. Qed.

Lemma opened_closed buf x L : x <> [] -> Forall (valid buf) L -> Forall (fun c => (ck_high c < length (buf ++ x))%nat) L.
Proof.
  intros Hx. apply Forall_impl. intros c [_ H]. rewrite app_length. destruct x; [congruence|]. simpl. lia.
Qed.

(** A new chunk at the end of the buffer. *)
Lemma opened_new buf x L c : opened buf L -> Forall (valid buf) L -> ck_high c = length (buf ++ x) -> sl (buf ++ x) c = x ->
  opened (buf ++ x) (c :: L).
Proof.
  intros HO HV Hc Hs. cbn [opened]. split; [exact Hc|]. rewrite Hs. destruct x as [|a x].
  - cbn [is_empty]. rewrite app_nil_r. exact HO.
  - cbn [is_empty]. apply opened_closed; [discriminate|exact HV].
Qed.

(** The open run of a clause is its last chunk, if it ends the buffer. *)
Lemma reopen_spec buf p c L : forall rest0,
  opened buf L -> Forall (valid buf) L -> filter (atp p) L = c :: rest0 ->
  (ck_high c = length buf /\ exists L', reopen p (map (run_of buf) L) = Some (run_of buf c, map (run_of buf) L') /\
       filter (atp p) L' = rest0 /\ (forall q, q <> p -> filter (atp q) L' = filter (atp q) L) /\ Forall (valid buf) L') \/
  (ck_high c <> length buf /\ reopen p (map (run_of buf) L) = None).
Proof.
  induction L as [|x L IH]; intros rest0 HO HV HF; [discriminate|].
  cbn [opened] in HO. destruct HO as [HX HO]. inversion HV as [|? ? V1 V2]; subst.
  cbn [filter] in HF. cbn [map reopen run_of r_pos r_text]. unfold atp in HF at 1. destruct (Z.eqb_spec (ck_pos x) p) as [E|E].
  - injection HF as -> HF. left. split; [exact HX|]. exists L. split; [reflexivity|]. split; [exact HF|]. split; [|exact V2].
    intros q Hq. cbn [filter]. unfold atp at 2. destruct (Z.eqb_spec (ck_pos c) q); [congruence|reflexivity].
  - destruct (is_empty (sl buf x)) eqn:Es.
    + destruct (IH rest0 HO V2 HF) as [(A1 & L' & A2 & A3 & A4 & A5)|(A1 & A2)].
      * left. split; [exact A1|]. exists (x :: L'). fold (run_of buf x). rewrite A2. split; [reflexivity|]. split; [|split].
        -- cbn [filter]. unfold atp at 1. destruct (Z.eqb_spec (ck_pos x) p); [contradiction|exact A3].
        -- intros q Hq. cbn [filter]. rewrite (A4 q Hq). reflexivity.
        -- constructor; assumption.
      * right. split; [exact A1|]. rewrite A2. reflexivity.
    + right. split; [|reflexivity]. assert (Hin : In c L) by (apply (filter_In (atp p)); rewrite HF; left; reflexivity).
      rewrite Forall_forall in HO. specialize (HO _ Hin). lia.
Qed.

Lemma filter_none {A} (f : A -> bool) l : Forall (fun x => f x = false) l -> filter f l = [].
Proof. induction 1 as [|x l Hx H IH]; [reflexivity|]. cbn [filter]. rewrite Hx. exact IH. Qed.

Lemma scan_match_split pos rc : forall tail i t, scan pos rc tail = SMatch i t ->
  exists a c b, rc = a ++ c :: b /\ length b = i /\ ck_pos c = pos /\ Forall (fun x => pos < ck_pos x) a.
Proof.
  induction rc as [|c rc IH]; intros tail i t; cbn [scan]; [discriminate|].
  destruct (Z.eqb_spec (ck_pos c) pos) as [E|E].
  - intros H; injection H as <- _. exists [], c, rc. repeat split; auto.
  - destruct (Z.ltb_spec (ck_pos c) pos); [discriminate|]. intros HH. destruct (IH _ _ _ HH) as (a & c' & b & -> & A1 & A2 & A3).
    exists (c :: a), c', b. split; [reflexivity|]. split; [exact A1|]. split; [exact A2|]. constructor; [lia|exact A3].
Qed.

Lemma atp_false pos q l : q = pos \/ True -> Forall (fun x : chunk => pos < ck_pos x) l -> filter (atp pos) l = [].
Proof. intros _ H. apply filter_none. eapply Forall_impl; [|exact H]. cbn beta. intros x Hx. unfold atp. apply Z.eqb_neq. lia. Qed.

Lemma filter_atp p c l : filter (atp p) (c :: l) = if ck_pos c =? p then c :: filter (atp p) l else filter (atp p) l.
Proof. reflexivity. Qed.

Lemma filter_insert f l i c : f c = false -> filter f (insert_chunk l i c) = filter f l.
Proof.
  intros H. unfold insert_chunk. rewrite filter_app. cbn [filter]. rewrite H. rewrite <- filter_app, firstn_skipn. reflexivity.
Qed.

Lemma add_chunk_runs q h pos kw expr args sep q' i :
  Rep (st_buf q) (st_chunks q) (st_args q) h ->
  add_chunk q pos kw expr args sep = Some (q', i) ->
  Runs (st_buf q) (st_chunks q) h ->
  Runs (st_buf q') (st_chunks q') (h ++ [mkWrite pos (kw_text (st_nl q) kw) expr args sep]).
Proof.
  intros HR HA (L & HL & HF & HO & HV). set (w := mkWrite pos _ expr args sep).
  pose proof (scan_open q h pos HR) as Hop. pose proof (Rep_valid _ _ _ _ HR) as HVC.
  unfold Runs. rewrite runs_snoc. unfold add_run. cbn [w_pos w_expr w_sep w_args w].
  unfold add_chunk in HA. cbn [set_pos st_chunks st_buf st_args st_nl] in HA.
  destruct (scan pos (rev (st_chunks q)) 0) as [ix tail|ix tail] eqn:Es.
  - destruct (scan_match_nth _ _ _ _ _ Es) as (c & Hc & Hcp). rewrite rev_involutive in Hc. rewrite Hc in HA.
    destruct (scan_match_split _ _ _ _ _ Es) as (rb & c1 & ra & ER & EI & EP & EB).
    assert (ECS : st_chunks q = rev ra ++ c1 :: rev rb).
    { rewrite <- (rev_involutive (st_chunks q)), ER, rev_app_distr. cbn [rev]. rewrite <- app_assoc. reflexivity. }
    assert (c1 = c) as ->.
    { rewrite ECS in Hc. rewrite nth_error_app2 in Hc by (rewrite rev_length; lia). rewrite rev_length, EI, Nat.sub_diag in Hc. injection Hc; auto. }
    assert (EFP : filter (atp pos) (rev (st_chunks q)) = c :: filter (atp pos) ra).
    { rewrite ER, filter_app, (atp_false pos pos rb) by (auto; exact EB). cbn [app filter]. unfold atp at 1. rewrite EP, Z.eqb_refl. reflexivity. }
    assert (Hcin : In c (st_chunks q)) by (eapply nth_error_In; exact Hc).
    assert (Hcv : valid (st_buf q) c) by (rewrite Forall_forall in HVC; auto).
    destruct (at_pos pos h) as [|w0 wr] eqn:Eat; [congruence|]. cbn [is_empty].
    destruct (is_empty expr) eqn:Ee.
    + assert (E : st_buf q' = st_buf q /\ st_chunks q' = st_chunks q).
      { destruct (0 <? length args)%nat.
        - match type of HA with (if ?b then _ else _) = _ => destruct b end; [discriminate|]. injection HA as <- _. split; reflexivity.
        - injection HA as <- _. split; reflexivity. }
      destruct E as [-> ->]. exists L. repeat split; assumption.
    + (* ck_has *)
      assert (Hh : ck_has c = existsb (fun x => negb (is_empty (w_expr x))) (w0 :: wr)).
      { destruct HR as (css & Hch & H2 & _).
        assert (Hin : In pos (positions h)) by (apply positions_in; rewrite Eat; discriminate).
        apply in_split in Hin as (ps1 & ps2 & Eps). pose proof (positions_sorted h) as HS. rewrite Eps in H2, HS.
        apply Forall2_app_inv_l in H2 as (css1 & csr & H21 & H2r & Ecss). inversion H2r as [|p0 g ps0 css2 Hg H22 Ep0 Ecsr]; subst.
        destruct (last_split g (rg_ne _ _ _ _ Hg)) as (g' & d & Eg).
        assert (F2 : Forall (fun x => ck_pos c < x) ps2).
        { clear -HS. induction ps1 as [|y ps1 IH]; cbn [app] in HS; inversion HS; subst; auto. }
        pose proof (forall2_chunk_pos _ _ _ _ _ H22 F2) as G2. rewrite <- Eat.
        pose proof (rg_has _ _ _ _ Hg _ _ Eg) as Hd. fold (clause_has (at_pos (ck_pos c) h)). rewrite <- Hd. f_equal.
        assert (Hdp : ck_pos d = ck_pos c).
        { pose proof (rg_pos _ _ _ _ Hg) as Q. rewrite Eg in Q. apply Forall_app in Q as [_ Q]. inversion Q; assumption. }
        rewrite Hch, concat_app in EFP. cbn [concat] in EFP. rewrite Eg in EFP. rewrite !rev_app_distr in EFP. cbn [rev app] in EFP.
        rewrite <- !app_assoc in EFP. rewrite filter_app in EFP. rewrite (atp_false (ck_pos c) 0 (rev (concat css2))) in EFP.
        - cbn [app filter] in EFP. unfold atp in EFP at 1. rewrite Hdp, Z.eqb_refl in EFP. injection EFP; intros; congruence.
        - right; exact I.
        - apply Forall_rev. exact G2. }
      rewrite <- Hh. rewrite <- app_assoc in HA. set (t := (if ck_has c then sep else B " ") ++ expr) in *.
      pose proof (reopen_spec (st_buf q) pos c L (filter (atp pos) ra) HO HV (eq_trans (eq_sym (HF pos)) EFP)) as RO.
      rewrite HL in RO.
      assert (Ht : t <> []).
      { intros E. unfold t in E. apply app_eq_nil in E as [_ E]. rewrite E in Ee. discriminate. }
      destruct (Nat.eqb_spec (ck_high c) (length (st_buf q))) as [Hadj|Hadj].
      * destruct RO as [(_ & L' & R1 & R2 & R3 & R4)|(R1 & _)]; [|contradiction]. rewrite R1.
        apply finish_chunk_same in HA as [E1 E2]. rewrite E1, E2. cbn [st_buf st_chunks set_chunks set_buf].
        set (c' := mkChunk (ck_pos c) (ck_low c) _ true _).
        assert (Esl : sl (st_buf q ++ t) c' = sl (st_buf q) c ++ t).
        { unfold c'. apply sl_extend; assumption. }
        exists (c' :: L'). split; [|split; [|split]].
        -- cbn [map]. rewrite map_run_grow by exact R4. unfold run_of at 1. rewrite Esl. cbn [ck_pos ck_argLen c' run_of r_text r_args]. rewrite Hcp. reflexivity.
        -- intros p. unfold update_chunk. rewrite ECS.
           replace ix with (length (rev ra)) by (rewrite rev_length; exact EI). rewrite firstn_app, firstn_all, Nat.sub_diag, firstn_O, app_nil_r.
           replace (skipn (S (length (rev ra))) (rev ra ++ c :: rev rb)) with (rev rb).
           2: { rewrite skipn_app, skipn_all2 by lia. replace (S (length (rev ra)) - length (rev ra))%nat with 1%nat by lia. reflexivity. }
           rewrite rev_app_distr. cbn [rev]. rewrite <- app_assoc, !rev_involutive, filter_app. cbn [app].
           rewrite !filter_atp. cbn [ck_pos c']. destruct (Z.eqb_spec (ck_pos c) p) as [E|E].
           ++ subst p. rewrite EP. rewrite (atp_false pos pos rb) by (auto; exact EB). rewrite R2. reflexivity.
           ++ rewrite R3 by congruence. rewrite <- HF, ER, filter_app, filter_atp. destruct (Z.eqb_spec (ck_pos c) p); [contradiction|reflexivity].
        -- cbn [opened]. split; [reflexivity|]. rewrite Esl. destruct (is_empty (sl (st_buf q) c ++ t)) eqn:E.
           ++ exfalso. apply is_empty_true in E. apply app_eq_nil in E as [_ E]. contradiction.
           ++ apply opened_closed; assumption.
        -- constructor; [|apply valid_grow_all; exact R4]. unfold valid, c'. cbn [ck_low ck_high]. destruct Hcv. rewrite app_length. lia.
      * destruct RO as [(R1 & _)|(_ & R1)]; [contradiction|]. rewrite R1.
        apply finish_chunk_same in HA as [E1 E2]. rewrite E1, E2. cbn [st_buf st_chunks set_chunks set_buf].
        exists (mkChunk pos (length (st_buf q)) (length (st_buf q ++ t)) true (length args) :: L). split; [|split; [|split]].
        -- cbn [map]. rewrite map_run_grow, HL by exact HV. unfold run_of. cbn [ck_pos ck_argLen]. rewrite sl_new. reflexivity.
        -- intros p. unfold insert_chunk. rewrite ECS.
           replace (rev ra ++ c :: rev rb) with ((rev ra ++ [c]) ++ rev rb) by (rewrite <- app_assoc; reflexivity).
           replace (S ix) with (length (rev ra ++ [c])) by (rewrite app_length, rev_length; simpl; lia).
           rewrite firstn_app, firstn_all, Nat.sub_diag, firstn_O, app_nil_r. rewrite skipn_app, skipn_all2, Nat.sub_diag, skipn_O by lia. cbn [app].
           rewrite rev_app_distr. cbn [rev]. rewrite rev_app_distr. cbn [rev app]. rewrite <- !app_assoc, !rev_involutive. cbn [app].
           rewrite filter_app, !filter_atp. cbn [ck_pos]. rewrite <- HF, ER, filter_app, filter_atp. destruct (Z.eqb_spec pos p) as [E|E]; [|reflexivity].
           subst p. rewrite (atp_false pos pos rb) by (auto; exact EB). reflexivity.
        -- apply opened_new; [exact HO|exact HV|reflexivity|apply sl_new].
        -- constructor; [|apply valid_grow_all; exact HV]. unfold valid. cbn [ck_low ck_high]. rewrite app_length. lia.
  - rewrite Hop. cbn [is_empty].
    apply finish_chunk_same in HA as [E1 E2]. rewrite E1, E2. cbn [st_buf st_chunks set_chunks set_buf].
    set (txt := (if is_empty kw then [] else _) ++ expr).
    assert (Etxt : txt = first_text w).
    { unfold txt, first_text. cbn [w_kw w_expr w]. rewrite is_empty_kw_text. unfold kw_text.
      destruct (is_empty kw); [reflexivity|]. cbn [orb]. destruct (st_nl q), (is_empty expr); rewrite <- ?app_assoc; reflexivity. }
    eexists (mkChunk pos (length (st_buf q)) (length (st_buf q ++ txt)) _ (length args) :: L). split; [|split; [|split]].
    + cbn [map]. rewrite map_run_grow, HL by exact HV. unfold run_of. cbn [ck_pos ck_argLen]. rewrite sl_new, Etxt. reflexivity.
    + intros p. rewrite filter_atp. cbn [ck_pos]. destruct (Z.eqb_spec pos p) as [E|E].
      * subst p. assert (EN : filter (atp pos) (rev (st_chunks q)) = []).
        { apply filter_none, Forall_forall. intros x Hx. apply in_rev in Hx. unfold atp. apply Z.eqb_neq. intros Ex.
          assert (Hin : In pos (positions h)).
          { destruct HR as (css & Hch & H2 & _). rewrite Hch in Hx. clear -H2 Hx Ex. induction H2 as [|p0 g ps css Hg H2 IH]; [destruct Hx|].
            cbn [concat] in Hx. apply in_app_or in Hx as [Hx|Hx]; [left|right; auto].
            pose proof (rg_pos _ _ _ _ Hg) as F. rewrite Forall_forall in F. rewrite <- (F _ Hx). exact Ex. }
          apply positions_in in Hin. contradiction. }
        rewrite <- HF, EN. unfold insert_chunk. rewrite rev_app_distr. cbn [rev]. rewrite <- app_assoc, !filter_app. cbn [app]. rewrite filter_atp. cbn [ck_pos]. rewrite Z.eqb_refl.
        rewrite <- (firstn_skipn ix (st_chunks q)), rev_app_distr, filter_app in EN. apply app_eq_nil in EN as [-> ->]. reflexivity.
      * rewrite <- HF. unfold insert_chunk. rewrite rev_app_distr. cbn [rev]. rewrite <- app_assoc, !filter_app. cbn [app]. rewrite filter_atp. cbn [ck_pos].
        destruct (Z.eqb_spec pos p); [contradiction|]. rewrite <- (firstn_skipn ix (st_chunks q)) at 3. rewrite rev_app_distr, filter_app. reflexivity.
    + apply opened_new; [exact HO|exact HV|reflexivity|apply sl_new].
    + constructor; [|apply valid_grow_all; exact HV]. unfold valid. cbn [ck_low ck_high]. rewrite app_length. lia.
Qed.

Lemma Runs_nil : Runs [] [] [].
Proof. exists []. repeat split; constructor. Qed.
