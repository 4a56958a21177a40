(** Proofs about the statement builder: the representation invariant. *)
From Verif Require Import GoBase GoBaseFacts XsqlModel XsqlSpec.
From Coq Require Import ZifyBool ZifyNat Sorted.
Open Scope Z_scope.

(** ** Lists *)
Lemma copy_at_app {A} (a b c s : list A) : length b = length s ->
  copy_at (a ++ b ++ c) (length a) s = a ++ s ++ c.
Proof.
  intros H. unfold copy_at. rewrite firstn_app, firstn_all, Nat.sub_diag, firstn_O, app_nil_r.
  f_equal. f_equal.
  - apply firstn_all2. rewrite !app_length. lia.
  - rewrite app_assoc, skipn_app. rewrite skipn_all2 by (rewrite app_length; lia).
    rewrite app_length, H, Nat.sub_diag. reflexivity.
Qed.

Lemma copy_at_exact {A} (a s : list A) (b : list A) : length b = length s ->
  copy_at (a ++ b) (length a) s = a ++ s.
Proof. intros H. pose proof (copy_at_app a b [] s H) as E. rewrite !app_nil_r in E. exact E. Qed.

Lemma insert_at_app {A} (a t src : list A) :
  insert_at (a ++ t) src (Z.of_nat (length a)) = Some (a ++ src ++ t).
Proof.
  unfold insert_at. destruct src as [|x src]; [reflexivity|].
  remember (x :: src) as s eqn:Es. clear x src Es.
  destruct (Z.ltb_spec (Z.of_nat (length a)) (Z.of_nat (length (a ++ t)))) as [Hlt|Hge].
  - destruct (Z.ltb_spec (Z.of_nat (length a)) 0) as [Hneg|_]; [lia|]. f_equal.
    rewrite Nat2Z.id.
    assert (E1 : skipn (length a) ((a ++ t) ++ s) = t ++ s).
    { rewrite <- app_assoc, skipn_app, skipn_all, Nat.sub_diag. reflexivity. }
    rewrite E1.
    assert (E2 : exists m, copy_at ((a ++ t) ++ s) (length a + length s) (t ++ s) = a ++ m ++ t /\ length m = length s).
    { unfold copy_at. exists (firstn (length s) (t ++ s)).
      split.
      - rewrite <- app_assoc, firstn_app_2, <- app_assoc. f_equal. f_equal.
        rewrite !app_length.
        replace (length a + (length t + length s) - (length a + length s))%nat with (length t) by lia.
        rewrite firstn_app, firstn_all, Nat.sub_diag, firstn_O, app_nil_r.
        rewrite skipn_all2; [apply app_nil_r|]. rewrite !app_length. lia.
      - rewrite firstn_length, app_length. lia. }
    destruct E2 as (m & -> & Hm). apply copy_at_app. exact Hm.
  - rewrite app_length in Hge. destruct t; [|simpl in Hge; lia]. rewrite !app_nil_r. reflexivity.
Qed.

Lemma nth_error_mid {A} (a : list A) x b : nth_error (a ++ x :: b) (length a) = Some x.
Proof. rewrite nth_error_app2 by lia. rewrite Nat.sub_diag. reflexivity. Qed.

Lemma update_chunk_mid a x b y : update_chunk (a ++ x :: b) (length a) y = a ++ y :: b.
Proof.
  unfold update_chunk. rewrite firstn_app, firstn_all, Nat.sub_diag, firstn_O, app_nil_r.
  f_equal. f_equal. rewrite skipn_app, skipn_all2 by lia.
  replace (S (length a) - length a)%nat with 1%nat by lia. reflexivity.
Qed.

Lemma insert_chunk_mid a b y : insert_chunk (a ++ b) (length a) y = a ++ y :: b.
Proof.
  unfold insert_chunk. rewrite firstn_app, firstn_all, Nat.sub_diag, firstn_O, app_nil_r.
  rewrite skipn_app, skipn_all, Nat.sub_diag. reflexivity.
Qed.

(** ** Positions *)
Lemma positions_snoc h w : positions (h ++ [w]) = ins_pos (w_pos w) (positions h).
Proof. unfold positions. rewrite fold_left_app. reflexivity. Qed.

Lemma ins_pos_cases p l : StronglySorted Z.lt l ->
  (exists l1 l2, l = l1 ++ p :: l2 /\ ins_pos p l = l /\ Forall (fun x => x < p) l1 /\ Forall (fun x => p < x) l2) \/
  (exists l1 l2, l = l1 ++ l2 /\ Forall (fun x => x < p) l1 /\ Forall (fun x => p < x) l2 /\ ins_pos p l = l1 ++ p :: l2).
Proof.
  induction l as [|x l IH]; intros HS; [right; exists [], []; repeat split; constructor|].
  inversion HS as [|? ? HS' HF]; subst. cbn [ins_pos].
  destruct (Z.ltb_spec p x).
  - right. exists [], (x :: l). repeat split; try constructor; [lia|].
    eapply Forall_impl; [|exact HF]. cbn beta. intros; lia.
  - destruct (Z.eqb_spec p x) as [->|].
    + left. exists [], l. repeat split; [constructor|exact HF].
    + destruct (IH HS') as [(l1 & l2 & -> & E & F1 & F2)|(l1 & l2 & -> & F1 & F2 & E)].
      * left. exists (x :: l1), l2. rewrite E. repeat split; try assumption. constructor; [lia|assumption].
      * right. exists (x :: l1), l2. rewrite E. repeat split; try assumption. constructor; [lia|assumption].
Qed.

Lemma ins_pos_sorted p l : StronglySorted Z.lt l -> StronglySorted Z.lt (ins_pos p l).
Proof.
  induction l as [|x l IH]; intros HS; cbn [ins_pos]; [repeat constructor|].
  inversion HS as [|? ? HS' HF]; subst.
  destruct (Z.ltb_spec p x).
  - constructor; [assumption|]. constructor; [lia|]. eapply Forall_impl; [|exact HF]. cbn beta; intros; lia.
  - destruct (Z.eqb_spec p x); [assumption|]. constructor; [apply IH; assumption|].
    assert (G : forall m, Forall (Z.lt x) m -> Forall (Z.lt x) (ins_pos p m)).
    { induction m as [|y m IHm]; intros Fm; cbn [ins_pos]; [repeat constructor; lia|].
      inversion Fm; subst. destruct (p <? y); [constructor; [lia|assumption]|].
      destruct (p =? y); [assumption|]. constructor; auto. }
    apply G; assumption.
Qed.

Lemma positions_sorted h : StronglySorted Z.lt (positions h).
Proof.
  induction h as [|w h IH] using rev_ind; [constructor|]. rewrite positions_snoc.
  apply ins_pos_sorted; exact IH.
Qed.

Lemma ins_pos_in p q l : In q (ins_pos p l) <-> q = p \/ In q l.
Proof.
  induction l as [|x l IH]; cbn [ins_pos]; [simpl; intuition|].
  destruct (p <? x); [simpl; intuition|]. destruct (Z.eqb_spec p x) as [->|]; simpl; [intuition|].
  rewrite IH. intuition.
Qed.

Lemma positions_in p h : In p (positions h) <-> at_pos p h <> [].
Proof.
  induction h as [|w h IH] using rev_ind; [simpl; intuition|].
  rewrite positions_snoc, ins_pos_in, IH. unfold at_pos. rewrite filter_app. simpl.
  destruct (Z.eqb_spec (w_pos w) p) as [->|Hn].
  - split; [|left; reflexivity]. intros _ E. apply app_eq_nil in E as [_ E]; congruence.
  - rewrite app_nil_r. intuition.
Qed.

Lemma at_pos_snoc_eq h w : at_pos (w_pos w) (h ++ [w]) = at_pos (w_pos w) h ++ [w].
Proof. unfold at_pos. rewrite filter_app. simpl. rewrite Z.eqb_refl. reflexivity. Qed.
Lemma at_pos_snoc_neq p h w : p <> w_pos w -> at_pos p (h ++ [w]) = at_pos p h.
Proof.
  intros H. unfold at_pos. rewrite filter_app. simpl.
  destruct (Z.eqb_spec (w_pos w) p); [congruence|]. apply app_nil_r.
Qed.

(** ** Clauses *)
Definition clause_has (ws : list write) : bool := existsb (fun w => negb (is_empty (w_expr w))) ws.

Lemma more_text_snoc ws : forall has w,
  more_text has (ws ++ [w]) =
  more_text has ws ++
  (if is_empty (w_expr w) then [] else (if has || clause_has ws then w_sep w else B " ") ++ w_expr w).
Proof.
  induction ws as [|v ws IH]; intros has w; cbn [app more_text clause_has existsb].
  - rewrite orb_false_r. destruct (is_empty (w_expr w)); [reflexivity|]. rewrite app_nil_r. reflexivity.
  - fold (clause_has ws). destruct (is_empty (w_expr v)) eqn:E; rewrite IH; cbn [negb orb].
    + reflexivity.
    + rewrite orb_true_r. cbn [orb]. rewrite <- !app_assoc. reflexivity.
Qed.

Lemma clause_text_snoc ws w : ws <> [] ->
  clause_text (ws ++ [w]) =
  clause_text ws ++ (if is_empty (w_expr w) then [] else (if clause_has ws then w_sep w else B " ") ++ w_expr w).
Proof.
  destruct ws as [|v ws]; [congruence|]. intros _. cbn [app clause_text clause_has existsb].
  fold (clause_has ws). rewrite more_text_snoc, <- app_assoc. reflexivity.
Qed.

Lemma clause_has_snoc ws w : clause_has (ws ++ [w]) = clause_has ws || negb (is_empty (w_expr w)).
Proof. unfold clause_has. rewrite existsb_app. simpl. rewrite orb_false_r. reflexivity. Qed.

Lemma more_args_snoc ws : forall acc w,
  more_args acc (ws ++ [w]) =
  (if is_empty (w_expr w) then w_args w ++ skipn (length (w_args w)) (more_args acc ws)
   else more_args acc ws ++ w_args w).
Proof. induction ws as [|v ws IH]; intros acc w; cbn [app more_args]; [reflexivity|]. apply IH. Qed.

Lemma clause_args_snoc ws w : ws <> [] ->
  clause_args (ws ++ [w]) =
  (if is_empty (w_expr w) then w_args w ++ skipn (length (w_args w)) (clause_args ws)
   else clause_args ws ++ w_args w).
Proof. destruct ws as [|v ws]; [congruence|]. intros _. cbn [app clause_args]. apply more_args_snoc. Qed.

(** ** Representation *)
Definition sl (buf : bytes) (c : chunk) : bytes := firstn (ck_high c - ck_low c) (skipn (ck_low c) buf).
Definition valid (buf : bytes) (c : chunk) : Prop := (ck_low c <= ck_high c <= length buf)%nat.
Definition sum_args (cs : list chunk) : nat := list_sum (map ck_argLen cs).

Lemma slice_sl buf c : valid buf c -> slice buf (ck_low c) (ck_high c) = Some (sl buf c).
Proof.
  intros [H1 H2]. unfold slice. destruct (Nat.leb_spec (ck_low c) (ck_high c)); [|lia].
  destruct (Nat.leb_spec (ck_high c) (length buf)); [|lia]. reflexivity.
Qed.

Lemma sl_grow buf x c : valid buf c -> sl (buf ++ x) c = sl buf c.
Proof.
  intros [H1 H2]. unfold sl. rewrite skipn_app, firstn_app, skipn_length.
  replace (ck_high c - ck_low c - (length buf - ck_low c))%nat with 0%nat by lia.
  rewrite firstn_O, app_nil_r. reflexivity.
Qed.

Lemma valid_grow buf x c : valid buf c -> valid (buf ++ x) c.
Proof. unfold valid. rewrite app_length. lia. Qed.

Lemma sl_new pos buf x has n : sl (buf ++ x) (mkChunk pos (length buf) (length (buf ++ x)) has n) = x.
Proof.
  unfold sl; cbn [ck_low ck_high]. rewrite app_length.
  replace (length buf + length x - length buf)%nat with (length x) by lia.
  rewrite skipn_app, skipn_all, Nat.sub_diag. cbn [app skipn]. apply firstn_all.
Qed.

Lemma sl_extend pos buf x has n c : valid buf c -> ck_high c = length buf ->
  sl (buf ++ x) (mkChunk pos (ck_low c) (length (buf ++ x)) has n) = sl buf c ++ x.
Proof.
  intros [H1 H2] H. unfold sl; cbn [ck_low ck_high]. rewrite app_length.
  rewrite skipn_app. replace (ck_low c - length buf)%nat with 0%nat by lia. cbn [skipn].
  rewrite firstn_app, skipn_length, H.
  rewrite (firstn_all2 (n := (length buf + length x - ck_low c)) (skipn (ck_low c) buf)) by (rewrite skipn_length; lia).
  rewrite (firstn_all2 (n := (length buf - ck_low c)) (skipn (ck_low c) buf)) by (rewrite skipn_length; lia).
  f_equal. apply firstn_all2. lia.
Qed.

Record repg (buf : bytes) (p : Z) (ws : list write) (cs : list chunk) : Prop := {
  rg_ne : cs <> [];
  rg_pos : Forall (fun c => ck_pos c = p) cs;
  rg_valid : Forall (valid buf) cs;
  rg_text : concat (map (sl buf) cs) = clause_text ws;
  rg_has : forall cs' c, cs = cs' ++ [c] -> ck_has c = clause_has ws;
  rg_args : sum_args cs = length (clause_args ws);
  rg_kw : clause_has ws = false ->
          length cs = 1%nat /\ length (clause_args ws) = length (w_args (hd (mkWrite 0 [] [] [] []) ws))
}.

Definition Rep (buf : bytes) (chunks : list chunk) (args : list goany) (h : list write) : Prop :=
  exists css, chunks = concat css /\
    Forall2 (fun p cs => repg buf p (at_pos p h) cs) (positions h) css /\
    args = spec_args h.

Lemma map_sl_grow buf x cs : Forall (valid buf) cs -> map (sl (buf ++ x)) cs = map (sl buf) cs.
Proof.
  intros H. apply map_ext_in. intros c Hc. apply sl_grow.
  rewrite Forall_forall in H. auto.
Qed.

Lemma repg_grow buf x p ws cs : repg buf p ws cs -> repg (buf ++ x) p ws cs.
Proof.
  intros [A1 A2 A3 A4 A5 A6 A7]. split; try assumption.
  - eapply Forall_impl; [|exact A3]. intros; apply valid_grow; assumption.
  - rewrite map_sl_grow by assumption. exact A4.
Qed.

Lemma sum_args_app a b : sum_args (a ++ b) = (sum_args a + sum_args b)%nat.
Proof. unfold sum_args. rewrite map_app. apply list_sum_app. Qed.

Lemma scan_gt pos l : forall rc tail, Forall (fun c => pos < ck_pos c) l ->
  scan pos (rev l ++ rc) tail = scan pos rc (tail + sum_args l).
Proof.
  induction l as [|c l IH] using rev_ind; intros rc tail H.
  - simpl. unfold sum_args; simpl. f_equal; lia.
  - apply Forall_app in H as [H1 H2]. inversion H2 as [|? ? Hc _]; subst.
    rewrite rev_app_distr. cbn [rev app]. cbn [scan].
    destruct (Z.eqb_spec (ck_pos c) pos); [lia|]. destruct (Z.ltb_spec (ck_pos c) pos); [lia|].
    rewrite IH by assumption. f_equal. rewrite sum_args_app. unfold sum_args; simpl. lia.
Qed.

Lemma scan_match pos a c b : Forall (fun c => pos < ck_pos c) b -> ck_pos c = pos ->
  scan pos (rev (a ++ c :: b)) 0 = SMatch (length a) (sum_args b).
Proof.
  intros Hb Hc. replace (a ++ c :: b) with ((a ++ [c]) ++ b) by (rewrite <- app_assoc; reflexivity).
  rewrite rev_app_distr, scan_gt by assumption. rewrite rev_app_distr. cbn [rev app scan].
  rewrite Hc, Z.eqb_refl, rev_length. reflexivity.
Qed.

Lemma scan_insert pos a b : Forall (fun c => pos < ck_pos c) b -> Forall (fun c => ck_pos c < pos) a ->
  scan pos (rev (a ++ b)) 0 = SInsert (length a) (sum_args b).
Proof.
  intros Hb Ha. rewrite rev_app_distr, scan_gt by assumption. cbn [Nat.add].
  destruct a as [|c a] using rev_ind; [reflexivity|]. clear IHa.
  rewrite rev_app_distr. cbn [rev app scan]. apply Forall_app in Ha as [_ Ha].
  inversion Ha; subst. destruct (Z.eqb_spec (ck_pos c) pos); [lia|].
  destruct (Z.ltb_spec (ck_pos c) pos); [|lia]. rewrite rev_length, app_length. simpl. f_equal; lia.
Qed.

Lemma forall2_chunk_pos buf h (P : Z -> Prop) ps css :
  Forall2 (fun p cs => repg buf p (at_pos p h) cs) ps css -> Forall P ps ->
  Forall (fun c => P (ck_pos c)) (concat css).
Proof.
  induction 1 as [|p cs ps css H1 H2 IH]; intros HP; [constructor|]. inversion HP; subst.
  cbn [concat]. apply Forall_app; split; [|auto].
  eapply Forall_impl; [|exact (rg_pos _ _ _ _ H1)]. cbn beta. intros c ->. assumption.
Qed.

Lemma forall2_args buf h ps css :
  Forall2 (fun p cs => repg buf p (at_pos p h) cs) ps css ->
  sum_args (concat css) = length (concat (map (fun p => clause_args (at_pos p h)) ps)).
Proof.
  induction 1 as [|p cs ps css H1 H2 IH]; [reflexivity|].
  cbn [concat map]. rewrite sum_args_app, app_length, IH, (rg_args _ _ _ _ H1). reflexivity.
Qed.

Lemma forall2_other buf x h w ps css :
  Forall (fun p => p <> w_pos w) ps ->
  Forall2 (fun p cs => repg buf p (at_pos p h) cs) ps css ->
  Forall2 (fun p cs => repg (buf ++ x) p (at_pos p (h ++ [w])) cs) ps css /\
  map (fun p => clause_args (at_pos p (h ++ [w]))) ps = map (fun p => clause_args (at_pos p h)) ps.
Proof.
  intros HF H2. induction H2 as [|p cs ps css H1 H2 IH]; [split; constructor|].
  inversion HF; subst. destruct (IH H4) as [I1 I2]. split.
  - constructor; [|assumption]. rewrite at_pos_snoc_neq by assumption. apply repg_grow; assumption.
  - cbn [map]. rewrite at_pos_snoc_neq by assumption. f_equal; assumption.
Qed.

Lemma forall_lt_ne p l : Forall (fun x => x < p) l -> Forall (fun x => x <> p) l.
Proof. apply Forall_impl. intros; lia. Qed.
Lemma forall_gt_ne p l : Forall (fun x => p < x) l -> Forall (fun x => x <> p) l.
Proof. apply Forall_impl. intros; lia. Qed.

Lemma last_split {A} (l : list A) : l <> [] -> exists a x, l = a ++ [x].
Proof. intros H. destruct l as [|y l] using rev_ind; [congruence|]. eauto. Qed.

(** What a successful addChunk leaves alone. *)
Definition same_frame (q q' : stmt) (pos : Z) : Prop :=
  st_name q' = st_name q /\ st_dialect q' = st_dialect q /\ st_pos q' = pos /\
  st_dest q' = st_dest q /\ st_nl q' = st_nl q.

Definition kw_text (nl : bool) (kw : bytes) : bytes :=
  if is_empty kw then [] else (if nl then [ch 10] else []) ++ kw.

Lemma is_empty_kw_text nl kw : is_empty (kw_text nl kw) = is_empty kw.
Proof. unfold kw_text. destruct kw; [reflexivity|]. simpl. destruct nl; reflexivity. Qed.

(** The central lemma: addChunk implements one write. *)
Lemma add_chunk_rep q h pos kw expr args sep :
  Rep (st_buf q) (st_chunks q) (st_args q) h ->
  ok_write h (mkWrite pos (kw_text (st_nl q) kw) expr args sep) = true ->
  exists q' i, add_chunk q pos kw expr args sep = Some (q', i) /\
    Rep (st_buf q') (st_chunks q') (st_args q') (h ++ [mkWrite pos (kw_text (st_nl q) kw) expr args sep]) /\
    same_frame q q' pos /\
    (st_sql q' = [] \/ (st_sql q' = st_sql q /\ st_buf q' = st_buf q /\ st_chunks q' = st_chunks q)) /\
    exists x, st_buf q' = st_buf q ++ x.
Proof.
  set (w := mkWrite pos _ expr args sep). intros (css & Hch & H2 & Hargs) Hok.
  pose proof (positions_sorted h) as HS.
  destruct (ins_pos_cases pos _ HS) as [(ps1 & ps2 & Eps & Eins & F1 & F2)|(ps1 & ps2 & Eps & F1 & F2 & Eins)].
  - (* the clause exists *)
    rewrite Eps in H2.
    apply Forall2_app_inv_l in H2 as (css1 & csr & H21 & H2r & Ecss).
    inversion H2r as [|p0 cs ps0 css2 Hg H22 Ep0 Ecsr]; subst csr p0 ps0. clear H2r.
    destruct (last_split cs (rg_ne _ _ _ _ Hg)) as (cs' & c & Ecs).
    assert (Hws : at_pos pos h <> []).
    { apply positions_in. rewrite Eps. apply in_or_app. right; left; reflexivity. }
    pose proof (forall2_chunk_pos _ _ _ _ _ H22 F2) as G2.
    assert (Hcp : ck_pos c = pos).
    { pose proof (rg_pos _ _ _ _ Hg) as Q. rewrite Ecs in Q. apply Forall_app in Q as [_ Q]. inversion Q; assumption. }
    assert (Hv : valid (st_buf q) c).
    { pose proof (rg_valid _ _ _ _ Hg) as Q. rewrite Ecs in Q. apply Forall_app in Q as [_ Q]. inversion Q; assumption. }
    assert (Ech : st_chunks q = (concat css1 ++ cs') ++ c :: concat css2).
    { rewrite Hch, Ecss, concat_app. cbn [concat]. rewrite Ecs, <- !app_assoc. reflexivity. }
    pose proof (scan_match pos (concat css1 ++ cs') c (concat css2) G2 Hcp) as Hscan.
    pose proof (rg_has _ _ _ _ Hg _ _ Ecs) as Hhas.
    set (A1 := concat (map (fun p => clause_args (at_pos p h)) ps1)).
    set (A2 := concat (map (fun p => clause_args (at_pos p h)) ps2)).
    set (G := clause_args (at_pos pos h)).
    assert (Eargs : st_args q = A1 ++ G ++ A2).
    { rewrite Hargs. unfold spec_args. rewrite Eps, map_app, concat_app. reflexivity. }
    assert (Etail : sum_args (concat css2) = length A2) by (apply (forall2_args _ _ _ _ H22)).
    unfold add_chunk. cbn [st_chunks st_buf st_args set_pos st_nl].
    rewrite Ech, Hscan, nth_error_mid.
    assert (Frep : forall buf x chunks args0 csn,
      buf = st_buf q ++ x -> chunks = concat css1 ++ csn ++ concat css2 ->
      repg (st_buf q ++ x) pos (at_pos pos h ++ [w]) csn ->
      args0 = A1 ++ clause_args (at_pos pos h ++ [w]) ++ A2 ->
      Rep buf chunks args0 (h ++ [w])).
    { intros buf x chunks args0 csn -> -> HR ->. exists (css1 ++ csn :: css2). split; [|split].
      - rewrite concat_app. reflexivity.
      - rewrite positions_snoc. cbn [w_pos w]. rewrite Eins, Eps. apply Forall2_app; [|constructor].
        + apply (forall2_other _ x h w); [apply forall_lt_ne; assumption|exact H21].
        + change pos with (w_pos w) at 2. rewrite at_pos_snoc_eq. exact HR.
        + apply (forall2_other _ x h w); [apply forall_gt_ne; assumption|exact H22].
      - unfold spec_args. rewrite positions_snoc. cbn [w_pos w]. rewrite Eins, Eps, map_app, concat_app.
        cbn [map concat]. change pos with (w_pos w) at 2. rewrite at_pos_snoc_eq.
        rewrite (proj2 (forall2_other _ x h w _ _ (forall_lt_ne _ _ F1) H21)).
        rewrite (proj2 (forall2_other _ x h w _ _ (forall_gt_ne _ _ F2) H22)). reflexivity. }
    destruct (is_empty expr) eqn:Ee.
    + (* no expression *)
      assert (Ht : forall n, repg (st_buf q) pos (at_pos pos h) cs ->
                 length (clause_args (at_pos pos h ++ [w])) = length G ->
                 (clause_has (at_pos pos h) = false -> n = true) ->
                 repg (st_buf q ++ []) pos (at_pos pos h ++ [w]) cs).
      { intros n [B1 B2 B3 B4 B5 B6 B7] HL Hn. rewrite app_nil_r. split; try assumption.
        - rewrite clause_text_snoc by assumption. cbn [w_expr w]. rewrite Ee, app_nil_r. exact B4.
        - intros cs0 c0 E0. rewrite clause_has_snoc. cbn [w_expr w]. rewrite Ee, orb_false_r. eapply B5; eassumption.
        - rewrite HL. exact B6.
        - intros Hh. rewrite clause_has_snoc in Hh. apply orb_false_iff in Hh as [Hh _].
          destruct (B7 Hh) as [C1 C2]. split; [exact C1|]. rewrite HL.
          destruct (at_pos pos h); [congruence|exact C2]. }
      destruct (Nat.ltb_spec 0 (length args)) as [Hpos|Hnil].
      * (* replaced arguments *)
        unfold ok_write in Hok. cbn [w_args w_expr w_pos w] in Hok.
        destruct (is_empty args) eqn:Ea; [apply is_empty_true in Ea; subst; simpl in Hpos; lia|].
        rewrite Ee in Hok. cbn [negb orb] in Hok.
        destruct (at_pos pos h) as [|w0 wr] eqn:Eat; [congruence|].
        apply andb_true_iff in Hok as [Hall Hlen]. apply Nat.eqb_eq in Hlen.
        assert (Hh0 : clause_has (w0 :: wr) = false).
        { unfold clause_has. rewrite <- (negb_involutive (existsb _ _)).
          apply negb_false_iff. rewrite <- Hall. clear. induction (w0 :: wr) as [|y l IH]; [reflexivity|].
          simpl. destruct (is_empty (w_expr y)); simpl; [exact IH|reflexivity]. }
        destruct (rg_kw _ _ _ _ Hg Hh0) as [K1 K2]. cbn [hd] in K2.
        assert (cs' = []) as ->.
        { rewrite Ecs, app_length in K1. simpl in K1. destruct cs'; [reflexivity|simpl in K1; lia]. }
        cbn [app] in Ecs. subst cs.
        pose proof (rg_args _ _ _ _ Hg) as K3. unfold sum_args in K3; cbn [map list_sum fold_right] in K3.
        assert (Hc1 : ck_argLen c = length args) by lia.
        assert (HG : length G = length args) by (unfold G; lia).
        rewrite Etail, Eargs, !app_length.
        replace (Z.of_nat (length A1 + (length G + length A2)) - Z.of_nat (length A2) - Z.of_nat (ck_argLen c))
          with (Z.of_nat (length A1)) by lia.
        destruct (Z.ltb_spec (Z.of_nat (length A1)) 0); [lia|].
        rewrite Nat2Z.id, copy_at_app by assumption.
        eexists _, _. split; [reflexivity|]. cbn [st_buf st_chunks st_args set_args set_pos st_sql].
        assert (Eca : clause_args ((w0 :: wr) ++ [w]) = args).
        { rewrite clause_args_snoc by congruence. cbn [w_expr w w_args]. rewrite Ee.
          rewrite skipn_all2 by (fold G; lia). apply app_nil_r. }
        split; [|split; [repeat split|split]].
        -- apply Frep with (x := []) (csn := [c]); [symmetry; apply app_nil_r| | |].
           ++ rewrite Ech, app_nil_r. reflexivity.
           ++ apply (Ht true); [exact Hg| |reflexivity]. rewrite Eca. symmetry; exact HG.
           ++ rewrite Eca. reflexivity.
        -- right. repeat split; try reflexivity; exact Ech.
        -- exists []. symmetry; apply app_nil_r.
      * (* nothing happens *)
        assert (args = []) as -> by (destruct args; [reflexivity|simpl in Hnil; lia]).
        eexists _, _. split; [reflexivity|]. cbn [st_buf st_chunks st_args set_args set_pos st_sql].
        assert (Eca : clause_args (at_pos pos h ++ [w]) = G).
        { rewrite clause_args_snoc by assumption. cbn [w_expr w w_args]. rewrite Ee. reflexivity. }
        split; [|split; [repeat split|split]].
        -- apply Frep with (x := []) (csn := cs); [symmetry; apply app_nil_r| | |].
           ++ rewrite Ech, Ecs, <- !app_assoc. reflexivity.
           ++ apply (Ht true); [exact Hg| |reflexivity]. rewrite Eca. reflexivity.
           ++ rewrite Eca. exact Eargs.
        -- right. repeat split; try reflexivity; exact Ech.
        -- exists []. symmetry; apply app_nil_r.
    + (* an expression is added *)
      cbv zeta. pose (sepx := if ck_has c then sep else B " ").
      assert (Etext : clause_text (at_pos pos h ++ [w]) = clause_text (at_pos pos h) ++ sepx ++ expr).
      { rewrite clause_text_snoc by assumption. cbn [w_expr w w_sep]. rewrite Ee. unfold sepx. rewrite Hhas. reflexivity. }
      assert (Eca : clause_args (at_pos pos h ++ [w]) = G ++ args).
      { rewrite clause_args_snoc by assumption. cbn [w_expr w w_args]. rewrite Ee. reflexivity. }
      assert (Ehas : clause_has (at_pos pos h ++ [w]) = true).
      { rewrite clause_has_snoc. cbn [w_expr w]. rewrite Ee. apply orb_true_r. }
      pose proof (rg_pos _ _ _ _ Hg) as P1. pose proof (rg_valid _ _ _ _ Hg) as P2.
      pose proof (rg_text _ _ _ _ Hg) as P3. pose proof (rg_args _ _ _ _ Hg) as P4.
      rewrite Ecs in P1, P2, P3, P4. apply Forall_app in P1 as [P11 _]. apply Forall_app in P2 as [P21 _].
      rewrite map_app, concat_app in P3. cbn [map concat] in P3. rewrite app_nil_r in P3.
      rewrite sum_args_app in P4. unfold sum_args in P4 at 2; cbn [map list_sum fold_right] in P4.
      assert (Hfin : forall q1 ix, st_args q1 = st_args q ->
        exists q2, finish_chunk q1 args (sum_args (concat css2)) ix = Some (q2, ix) /\
          st_args q2 = A1 ++ (G ++ args) ++ A2 /\ st_buf q2 = st_buf q1 /\ st_chunks q2 = st_chunks q1 /\
          st_sql q2 = [] /\ st_name q2 = st_name q1 /\ st_dialect q2 = st_dialect q1 /\ st_pos q2 = st_pos q1 /\
          st_dest q2 = st_dest q1 /\ st_nl q2 = st_nl q1).
      { intros q1 ix Eq1. unfold finish_chunk. destruct args as [|a0 ar] eqn:Ea.
        - eexists; split; [reflexivity|]. rewrite app_nil_r. cbn. rewrite Eq1, Eargs. repeat split; reflexivity.
        - rewrite <- Ea. rewrite Eq1, Eargs, Etail.
          replace (Z.of_nat (length (A1 ++ G ++ A2)) - Z.of_nat (length A2)) with (Z.of_nat (length (A1 ++ G))).
          2: { rewrite !app_length. lia. }
          rewrite app_assoc, insert_at_app. eexists; split; [reflexivity|]. cbn.
          rewrite <- !app_assoc. repeat split; reflexivity. }
      rewrite <- app_assoc.
      destruct (Nat.eqb_spec (ck_high c) (length (st_buf q))) as [Hadj|Hnadj].
      * (* adjacent: the chunk is extended *)
        match goal with |- context[finish_chunk ?q1 _ _ ?ix] => destruct (Hfin q1 ix eq_refl) as (q2 & -> & R1 & R2 & R3 & R4 & R5 & R6 & R7 & R8 & R9) end.
        cbn [st_name st_dialect st_pos st_chunks st_buf st_sql st_args st_dest st_nl set_name set_dialect set_pos set_chunks set_buf set_sql set_args set_dest set_nl invalidate] in R2, R3, R5, R6, R7, R8, R9. rewrite update_chunk_mid in R3.
        assert (R2' : st_buf q2 = st_buf q ++ sepx ++ expr) by exact R2. clear R2; rename R2' into R2.
        assert (R3' : st_chunks q2 = (concat css1 ++ cs') ++ mkChunk (ck_pos c) (ck_low c) (length (st_buf q ++ sepx ++ expr)) true (ck_argLen c + length args) :: concat css2) by exact R3.
        clear R3; rename R3' into R3.
        eexists _, _. split; [reflexivity|].
        rewrite R1, R2, R3. split; [|split; [unfold same_frame; rewrite R5, R6, R7, R8, R9; repeat split|split]].
        -- match goal with |- Rep _ (_ ++ ?cn :: _) _ _ =>
             apply Frep with (x := sepx ++ expr) (csn := cs' ++ [cn]); [reflexivity| | |] end.
           ++ rewrite <- !app_assoc. reflexivity.
           ++ split.
              ** intros E; apply app_eq_nil in E as [_ E]; congruence.
              ** apply Forall_app; split; [assumption|constructor; [exact Hcp|constructor]].
              ** apply Forall_app; split.
                 --- eapply Forall_impl; [|exact P21]. intros; apply valid_grow; assumption.
                 --- constructor; [|constructor]. unfold valid; cbn [ck_low ck_high]. rewrite !app_length.
                     destruct Hv. lia.
              ** rewrite map_app, concat_app, map_sl_grow by assumption. cbn [map concat].
                 rewrite sl_extend by assumption. rewrite app_nil_r, Etext, <- P3, <- !app_assoc. reflexivity.
              ** intros cs0 c0 E0. apply app_inj_tail in E0 as [_ <-]. cbn [ck_has]. symmetry; exact Ehas.
              ** rewrite sum_args_app. unfold sum_args at 2; cbn [map list_sum fold_right ck_argLen].
                 rewrite Eca, app_length. unfold G. lia.
              ** congruence.
           ++ rewrite Eca. reflexivity.
        -- left; exact R4.
        -- eexists; reflexivity.
      * (* a new chunk after the last one of the clause *)
        match goal with |- context[finish_chunk ?q1 _ _ ?ix] => destruct (Hfin q1 ix eq_refl) as (q2 & -> & R1 & R2 & R3 & R4 & R5 & R6 & R7 & R8 & R9) end.
        cbn [st_name st_dialect st_pos st_chunks st_buf st_sql st_args st_dest st_nl set_name set_dialect set_pos set_chunks set_buf set_sql set_args set_dest set_nl invalidate] in R2, R3, R5, R6, R7, R8, R9.
        assert (Eins2 : forall y, insert_chunk ((concat css1 ++ cs') ++ c :: concat css2) (S (length (concat css1 ++ cs'))) y
                 = (concat css1 ++ cs' ++ [c]) ++ y :: concat css2).
        { intros y. replace ((concat css1 ++ cs') ++ c :: concat css2) with ((concat css1 ++ cs' ++ [c]) ++ concat css2)
            by (rewrite <- !app_assoc; reflexivity).
          replace (S (length (concat css1 ++ cs'))) with (length (concat css1 ++ cs' ++ [c])) by (rewrite !app_length; simpl; lia).
          apply insert_chunk_mid. }
        rewrite Eins2 in R3.
        assert (R2' : st_buf q2 = st_buf q ++ sepx ++ expr) by exact R2. clear R2; rename R2' into R2.
        assert (R3' : st_chunks q2 = (concat css1 ++ cs' ++ [c]) ++ mkChunk pos (length (st_buf q)) (length (st_buf q ++ sepx ++ expr)) true (length args) :: concat css2) by exact R3.
        clear R3; rename R3' into R3.
        eexists _, _. split; [reflexivity|].
        rewrite R1, R2, R3. split; [|split; [unfold same_frame; rewrite R5, R6, R7, R8, R9; repeat split|split]].
        -- match goal with |- Rep _ (_ ++ ?cn :: _) _ _ =>
             apply Frep with (x := sepx ++ expr) (csn := (cs' ++ [c]) ++ [cn]); [reflexivity| | |] end.
           ++ rewrite <- !app_assoc. reflexivity.
           ++ split.
              ** intros E; apply app_eq_nil in E as [_ E]; congruence.
              ** apply Forall_app; split; [|constructor; [reflexivity|constructor]].
                 rewrite <- Ecs. exact (rg_pos _ _ _ _ Hg).
              ** apply Forall_app; split.
                 --- rewrite <- Ecs. eapply Forall_impl; [|exact (rg_valid _ _ _ _ Hg)]. intros; apply valid_grow; assumption.
                 --- constructor; [|constructor]. unfold valid; cbn [ck_low ck_high]. rewrite app_length. lia.
              ** rewrite map_app, concat_app, map_sl_grow by (rewrite <- Ecs; exact (rg_valid _ _ _ _ Hg)).
                 cbn [map concat]. rewrite sl_new, app_nil_r, Etext. f_equal.
                 rewrite <- Ecs. exact (rg_text _ _ _ _ Hg).
              ** intros cs0 c0 E0. apply app_inj_tail in E0 as [_ <-]. cbn [ck_has]. symmetry; exact Ehas.
              ** rewrite sum_args_app. unfold sum_args at 2; cbn [map list_sum fold_right ck_argLen].
                 rewrite <- Ecs, (rg_args _ _ _ _ Hg), Eca, app_length. unfold G. lia.
              ** congruence.
           ++ rewrite Eca. reflexivity.
        -- left; exact R4.
        -- eexists; reflexivity.
  - (* a new clause *)
    rewrite Eps in H2.
    apply Forall2_app_inv_l in H2 as (css1 & css2 & H21 & H22 & Ecss).
    pose proof (forall2_chunk_pos _ _ _ _ _ H22 F2) as G2.
    pose proof (forall2_chunk_pos _ _ _ _ _ H21 F1) as G1.
    assert (Hws : at_pos pos h = []).
    { destruct (at_pos pos h) eqn:E; [reflexivity|]. assert (Hin : In pos (positions h)) by (apply positions_in; congruence).
      rewrite Eps in Hin. apply in_app_or in Hin as [Hin|Hin].
      - rewrite Forall_forall in F1. specialize (F1 _ Hin). lia.
      - rewrite Forall_forall in F2. specialize (F2 _ Hin). lia. }
    assert (Ech : st_chunks q = concat css1 ++ concat css2) by (rewrite Hch, Ecss, concat_app; reflexivity).
    set (A1 := concat (map (fun p => clause_args (at_pos p h)) ps1)).
    set (A2 := concat (map (fun p => clause_args (at_pos p h)) ps2)).
    assert (Eargs : st_args q = A1 ++ A2).
    { rewrite Hargs. unfold spec_args. rewrite Eps, map_app, concat_app. reflexivity. }
    assert (Etail : sum_args (concat css2) = length A2) by (apply (forall2_args _ _ _ _ H22)).
    unfold add_chunk. cbn [st_chunks st_buf st_args set_pos st_nl].
    rewrite Ech, (scan_insert pos _ _ G2 G1), insert_chunk_mid.
    set (txt := (if is_empty kw then [] else _) ++ expr).
    assert (Etxt : txt = first_text w).
    { unfold txt, first_text. cbn [w_kw w_expr w]. rewrite is_empty_kw_text. unfold kw_text.
      destruct (is_empty kw); [reflexivity|]. cbn [orb].
      destruct (st_nl q), (is_empty expr); rewrite <- ?app_assoc; reflexivity. }
    assert (Hfin : forall q1 ix, st_args q1 = st_args q ->
      exists q2, finish_chunk q1 args (sum_args (concat css2)) ix = Some (q2, ix) /\
        st_args q2 = A1 ++ args ++ A2 /\ st_buf q2 = st_buf q1 /\ st_chunks q2 = st_chunks q1 /\
        st_sql q2 = [] /\ st_name q2 = st_name q1 /\ st_dialect q2 = st_dialect q1 /\ st_pos q2 = st_pos q1 /\
        st_dest q2 = st_dest q1 /\ st_nl q2 = st_nl q1).
    { intros q1 ix Eq1. unfold finish_chunk. destruct args as [|a0 ar] eqn:Ea.
      - eexists; split; [reflexivity|]. cbn. rewrite Eq1, Eargs. repeat split; reflexivity.
      - rewrite <- Ea. rewrite Eq1, Eargs, Etail.
        replace (Z.of_nat (length (A1 ++ A2)) - Z.of_nat (length A2)) with (Z.of_nat (length A1)).
        2: { rewrite !app_length. lia. }
        rewrite insert_at_app. eexists; split; [reflexivity|]. cbn. repeat split; reflexivity. }
    match goal with |- context[finish_chunk ?q1 _ _ ?ix] => destruct (Hfin q1 ix eq_refl) as (q2 & -> & R1 & R2 & R3 & R4 & R5 & R6 & R7 & R8 & R9) end.
    cbn [st_name st_dialect st_pos st_chunks st_buf st_sql st_args st_dest st_nl set_name set_dialect set_pos set_chunks set_buf set_sql set_args set_dest set_nl invalidate] in R2, R3, R5, R6, R7, R8, R9.
    eexists _, _. split; [reflexivity|].
    rewrite R1, R2, R3. split; [|split; [unfold same_frame; rewrite R5, R6, R7, R8, R9; repeat split|split]].
    + eexists (css1 ++ [_] :: css2). split; [rewrite concat_app; reflexivity|split].
      * rewrite positions_snoc. cbn [w_pos w]. rewrite Eins. apply Forall2_app; [|constructor].
        -- apply (forall2_other _ txt h w); [apply forall_lt_ne; assumption|exact H21].
        -- change pos with (w_pos w) at 2. rewrite at_pos_snoc_eq. cbn [w_pos w]. rewrite Hws. cbn [app].
           split.
           ++ congruence.
           ++ constructor; [reflexivity|constructor].
           ++ constructor; [|constructor]. unfold valid; cbn [ck_low ck_high]. rewrite app_length. lia.
           ++ cbn [map concat]. rewrite sl_new, app_nil_r. cbn [clause_text more_text]. rewrite app_nil_r. exact Etxt.
           ++ intros cs0 c0 E0. destruct cs0 as [|? cs0]; [|destruct cs0; discriminate]. injection E0 as <-.
              cbn [ck_has clause_has existsb w_expr w]. rewrite orb_false_r. reflexivity.
           ++ unfold sum_args; cbn. lia.
           ++ intros _. split; reflexivity.
        -- apply (forall2_other _ txt h w); [apply forall_gt_ne; assumption|exact H22].
      * unfold spec_args. rewrite positions_snoc. cbn [w_pos w]. rewrite Eins, map_app, concat_app.
        cbn [map concat]. change (at_pos pos (h ++ [w])) with (at_pos (w_pos w) (h ++ [w])). rewrite at_pos_snoc_eq. cbn [w_pos w]. rewrite Hws. cbn [app clause_args more_args w_args w].
        rewrite (proj2 (forall2_other _ txt h w _ _ (forall_lt_ne _ _ F1) H21)).
        rewrite (proj2 (forall2_other _ txt h w _ _ (forall_gt_ne _ _ F2) H22)). reflexivity.
    + left; exact R4.
    + eexists; reflexivity.
Qed.
