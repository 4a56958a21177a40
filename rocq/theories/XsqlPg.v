(** Postgres placeholder numbering: the writePg loop, and its behaviour on
    concatenations. *)
From Verif Require Import GoBase GoBaseFacts XsqlModel XsqlSpec XsqlProofs.
From Coq Require Import ZifyBool ZifyNat Sorted.
Open Scope Z_scope.

Lemma bs_ne_qm : c_bs <> c_qm. Proof. discriminate. Qed.

Ltac adec := match goal with |- context[ascii_dec ?a ?b] => destruct (ascii_dec a b) end.

Lemma list_len_ind {A} (P : list A -> Prop) :
  (forall l, (forall m, (length m < length l)%nat -> P m) -> P l) -> forall l, P l.
Proof.
  intros H l. remember (length l) as n eqn:E. revert l E. induction n as [n IH] using lt_wf_ind.
  intros l ->. apply H. intros m Hm. eapply IH; [exact Hm|reflexivity].
Qed.

(** One step of the scanner. *)
Lemma pg_number_esc k r : pg_number k (c_bs :: c_qm :: r) = (fst (pg_number k r), c_qm :: snd (pg_number k r)).
Proof.
  cbn [pg_number]. destruct (ascii_dec c_bs c_bs); [|congruence]. destruct (ascii_dec c_qm c_qm); [|congruence].
  destruct (pg_number k r); reflexivity.
Qed.
Lemma pg_number_qm k r : pg_number k (c_qm :: r) =
  (fst (pg_number (k + 1) r), [c_dollar] ++ fmt_uint 10 k ++ snd (pg_number (k + 1) r)).
Proof.
  cbn [pg_number]. destruct (ascii_dec c_qm c_bs) as [E|_]; [discriminate|].
  destruct (ascii_dec c_qm c_qm); [|congruence]. destruct (pg_number (k + 1) r); reflexivity.
Qed.
Definition plain_at (c : ascii) (r : bytes) : Prop :=
  c <> c_qm /\ (c = c_bs -> match r with d :: _ => d <> c_qm | [] => True end).
Lemma pg_number_plain k c r : plain_at c r ->
  pg_number k (c :: r) = (fst (pg_number k r), c :: snd (pg_number k r)).
Proof.
  intros [H1 H2]. cbn [pg_number]. destruct (ascii_dec c c_bs) as [E|E].
  - destruct r as [|d r]; [reflexivity|]. destruct (ascii_dec d c_qm) as [E2|E2]; [exfalso; exact (H2 E E2)|].
    destruct (pg_number k (d :: r)); reflexivity.
  - destruct (ascii_dec c c_qm); [congruence|]. destruct (pg_number k r); reflexivity.
Qed.
Lemma placeholders_esc r : placeholders (c_bs :: c_qm :: r) = placeholders r.
Proof.
  cbn [placeholders]. destruct (ascii_dec c_bs c_bs); [|congruence]. destruct (ascii_dec c_qm c_qm); [|congruence].
  reflexivity.
Qed.
Lemma placeholders_qm r : placeholders (c_qm :: r) = S (placeholders r).
Proof.
  cbn [placeholders]. destruct (ascii_dec c_qm c_bs) as [E|_]; [discriminate|].
  destruct (ascii_dec c_qm c_qm); [|congruence]. reflexivity.
Qed.
Lemma placeholders_plain c r : plain_at c r -> placeholders (c :: r) = placeholders r.
Proof.
  intros [H1 H2]. cbn [placeholders]. destruct (ascii_dec c c_bs) as [E|E].
  - destruct r as [|d r]; [reflexivity|]. destruct (ascii_dec d c_qm) as [E2|E2]; [exfalso; exact (H2 E E2)|]. reflexivity.
  - destruct (ascii_dec c c_qm); [congruence|]. reflexivity.
Qed.

(** The three shapes of a text. *)
Lemma pg_cases c r : (exists r', c = c_bs /\ r = c_qm :: r') \/ c = c_qm \/ plain_at c r.
Proof.
  destruct (ascii_dec c c_qm) as [E|E]; [right; left; exact E|].
  destruct (ascii_dec c c_bs) as [E2|E2].
  - destruct r as [|d r]; [right; right; split; [exact E|intros; exact I]|].
    destruct (ascii_dec d c_qm) as [E3|E3]; [left; exists r; subst; auto|].
    right; right. split; [exact E|intros; exact E3].
  - right; right. split; [exact E|congruence].
Qed.

Lemma ends_bs_cons c d r : ends_bs (c :: d :: r) = ends_bs (d :: r).
Proof.
  unfold ends_bs. apply eq_true_iff_eq. rewrite !has_suffix_spec. split; intros (x & E).
  - destruct x as [|y x]; [discriminate|]. injection E as _ E. exists x; exact E.
  - exists (c :: x). rewrite E. reflexivity.
Qed.
Lemma ends_bs_one c : ends_bs [c] = true <-> c = c_bs.
Proof.
  unfold ends_bs. rewrite has_suffix_spec. split.
  - intros (x & E). destruct x as [|y x]; [injection E as ->; reflexivity|]. destruct x; discriminate.
  - intros ->. exists []. reflexivity.
Qed.
Lemma ends_bs_nil : ends_bs [] = false. Proof. reflexivity. Qed.
Lemma ends_bs_app a b : b <> [] -> ends_bs (a ++ b) = ends_bs b.
Proof.
  intros H. induction a as [|c a IH]; [reflexivity|]. cbn [app].
  destruct (a ++ b) as [|d r] eqn:E; [apply app_eq_nil in E as [_ E]; congruence|].
  rewrite ends_bs_cons. exact IH.
Qed.

(** a ++ b does not create an escape at the boundary *)
Definition safe_join (a b : bytes) : Prop :=
  ends_bs a = false \/ match b with c :: _ => c <> c_qm | [] => True end.

Lemma plain_at_app c r b : plain_at c r -> safe_join (c :: r) b -> plain_at c (r ++ b).
Proof.
  intros [H1 H2] HS. split; [exact H1|]. intros Hc. specialize (H2 Hc).
  destruct r as [|d r]; [|exact H2]. cbn [app]. destruct HS as [HS|HS]; [|exact HS].
  exfalso. apply not_true_iff_false in HS. apply HS, ends_bs_one. exact Hc.
Qed.

Lemma safe_join_tail c a b : a <> [] -> safe_join (c :: a) b -> safe_join a b.
Proof.
  intros Ha [H|H]; [left|right; exact H]. destruct a as [|d a]; [congruence|]. rewrite ends_bs_cons in H. exact H.
Qed.
Lemma safe_join_nil b : safe_join [] b. Proof. left; reflexivity. Qed.
Lemma safe_join_tail' c a b : safe_join (c :: a) b -> safe_join a b.
Proof. destruct a as [|d a]; [intros; apply safe_join_nil|]. intros H. eapply safe_join_tail; [congruence|exact H]. Qed.

Lemma pg_number_app a : forall b k, safe_join a b ->
  pg_number k (a ++ b) =
  (fst (pg_number (fst (pg_number k a)) b), snd (pg_number k a) ++ snd (pg_number (fst (pg_number k a)) b)).
Proof.
  induction a as [a IH] using list_len_ind. intros b k HS. destruct a as [|c a]; [cbn; destruct (pg_number k b); reflexivity|].
  destruct (pg_cases c a) as [(r' & -> & ->)|[->|HP]].
  - change ((c_bs :: c_qm :: r') ++ b) with (c_bs :: c_qm :: (r' ++ b)). rewrite !pg_number_esc. cbn [fst snd app].
    rewrite IH; [reflexivity|simpl; lia|]. eapply safe_join_tail', safe_join_tail'. exact HS.
  - cbn [app]. rewrite !pg_number_qm. cbn [fst snd]. rewrite IH; [|simpl; lia|eapply safe_join_tail'; exact HS].
    cbn [fst snd app]. rewrite <- !app_assoc. reflexivity.
  - cbn [app]. rewrite (pg_number_plain k c (a ++ b)) by (apply plain_at_app; assumption).
    rewrite (pg_number_plain k c a) by assumption. cbn [fst snd].
    rewrite IH; [reflexivity|simpl; lia|eapply safe_join_tail'; exact HS].
Qed.

Lemma placeholders_app a : forall b, safe_join a b -> placeholders (a ++ b) = (placeholders a + placeholders b)%nat.
Proof.
  induction a as [a IH] using list_len_ind. intros b HS. destruct a as [|c a]; [reflexivity|].
  destruct (pg_cases c a) as [(r' & -> & ->)|[->|HP]].
  - change ((c_bs :: c_qm :: r') ++ b) with (c_bs :: c_qm :: (r' ++ b)). rewrite !placeholders_esc.
    apply IH; [simpl; lia|]. eapply safe_join_tail', safe_join_tail'. exact HS.
  - cbn [app]. rewrite !placeholders_qm. rewrite IH; [reflexivity|simpl; lia|eapply safe_join_tail'; exact HS].
  - cbn [app]. rewrite (placeholders_plain c (a ++ b)) by (apply plain_at_app; assumption).
    rewrite (placeholders_plain c a) by assumption.
    apply IH; [simpl; lia|eapply safe_join_tail'; exact HS].
Qed.

Lemma pg_number_fst s : forall k, fst (pg_number k s) = k + Z.of_nat (placeholders s).
Proof.
  induction s as [s IH] using list_len_ind. intros k. destruct s as [|c a]; [cbn; lia|].
  destruct (pg_cases c a) as [(r' & -> & ->)|[->|HP]].
  - rewrite pg_number_esc, placeholders_esc. cbn [fst]. apply IH. simpl; lia.
  - rewrite pg_number_qm, placeholders_qm. cbn [fst]. rewrite IH by (simpl; lia). lia.
  - rewrite pg_number_plain, placeholders_plain by assumption. cbn [fst]. apply IH. simpl; lia.
Qed.

Definition no_qm (s : bytes) : Prop := ~ In c_qm s.
Lemma pg_number_noqm s k : no_qm s -> pg_number k s = (k, s).
Proof.
  induction s as [|c s IH]; intros H; [reflexivity|].
  rewrite pg_number_plain.
  - rewrite IH by (intros X; apply H; right; exact X). reflexivity.
  - split; [intros ->; apply H; left; reflexivity|]. intros _. destruct s as [|d s]; [exact I|].
    intros ->. apply H. right; left; reflexivity.
Qed.
Lemma placeholders_noqm s : no_qm s -> placeholders s = 0%nat.
Proof.
  intros H. pose proof (pg_number_fst s 0) as E. rewrite (pg_number_noqm s 0 H) in E. cbn [fst] in E. lia.
Qed.

(** ** The code's loop *)
Definition pg_finish (s : bytes) (x : nat * Z * bytes) : Z * bytes :=
  let '(start, n, out) := x in (n, if (start <? length s)%nat then out ++ skipn start s else out).

Lemma pg_finish_skip s start n out : pg_finish s (start, n, out) = (n, out ++ skipn start s).
Proof.
  unfold pg_finish. destruct (Nat.ltb_spec start (length s)); [reflexivity|].
  rewrite skipn_all2 by lia. rewrite app_nil_r. reflexivity.
Qed.

Lemma pg_loop_spec s : forall rest pre start n out, s = pre ++ rest -> (start <= length pre)%nat -> 0 <= n ->
  pg_finish s (pg_loop s rest (length pre) start n out) =
  (fst (pg_number n rest), out ++ skipn start pre ++ snd (pg_number n rest)).
Proof.
  induction rest as [rest IH] using list_len_ind. intros pre start n out Es Hst Hn.
  assert (Efn : firstn (length pre - start) (skipn start s) = skipn start pre).
  { rewrite Es, skipn_app, firstn_app, skipn_length.
    rewrite firstn_all2 by (rewrite skipn_length; lia).
    replace (length pre - start - (length pre - start))%nat with 0%nat by lia. rewrite firstn_O, app_nil_r. reflexivity. }
  destruct rest as [|c rest].
  - cbn [pg_loop]. rewrite pg_finish_skip. cbn [pg_number fst snd]. rewrite Es, !app_nil_r. reflexivity.
  - cbn [pg_loop]. destruct (Nat.ltb_spec (length pre) start); [lia|].
    assert (Epre : length (pre ++ [c]) = S (length pre)) by (rewrite app_length; simpl; lia).
    assert (Hplain : plain_at c rest ->
       pg_finish s (pg_loop s rest (S (length pre)) start n out) =
       (fst (pg_number n (c :: rest)), out ++ skipn start pre ++ snd (pg_number n (c :: rest)))).
    { intros HP. rewrite pg_number_plain by assumption. cbn [fst snd]. rewrite <- Epre.
      rewrite IH; [|simpl; lia|rewrite Es, <- app_assoc; reflexivity|rewrite app_length; simpl; lia|exact Hn].
      rewrite skipn_app. replace (start - length pre)%nat with 0%nat by lia. cbn [skipn].
      rewrite <- !app_assoc. reflexivity. }
    destruct (ascii_dec c c_bs) as [Eb|Eb].
    + destruct rest as [|d rest].
      * apply Hplain. split; [subst; discriminate|intros; exact I].
      * destruct (ascii_dec d c_qm) as [Eq|Eq].
        -- subst c d. cbn [pg_loop]. destruct (Nat.ltb_spec (S (length pre)) (length pre + 2)); [|lia].
           rewrite Efn, pg_number_esc. cbn [fst snd].
           assert (E2 : length (pre ++ [c_bs; c_qm]) = S (S (length pre))) by (rewrite app_length; simpl; lia).
           rewrite <- E2. rewrite IH; [|simpl; lia|rewrite Es, <- app_assoc; reflexivity|rewrite E2; lia|exact Hn].
           rewrite (skipn_all2 (pre ++ [c_bs; c_qm])) by (rewrite E2; lia). cbn [app]. rewrite <- !app_assoc. reflexivity.
        -- apply Hplain. split; [subst; discriminate|intros; exact Eq].
    + destruct (ascii_dec c c_qm) as [Eq|Eq].
      * subst c. rewrite Efn, pg_number_qm. cbn [fst snd]. rewrite <- Epre.
        rewrite IH; [|simpl; lia|rewrite Es, <- app_assoc; reflexivity|rewrite Epre; lia|lia].
        rewrite (skipn_all2 (pre ++ [c_qm])) by (rewrite Epre; lia).
        replace (itoa n) with (fmt_uint 10 n) by (unfold itoa, fmt_int; destruct (Z.ltb_spec n 0); [lia|reflexivity]).
        cbn [app]. rewrite <- !app_assoc. reflexivity.
      * apply Hplain. split; [exact Eq|congruence].
Qed.

Lemma write_pg_spec k s out : 0 <= k -> write_pg k s out = (fst (pg_number k s), out ++ snd (pg_number k s)).
Proof.
  intros Hk. pose proof (pg_loop_spec s s [] 0%nat k out eq_refl (Nat.le_refl 0) Hk) as E.
  cbn [length skipn app] in E. unfold write_pg, pg_finish in *.
  destruct (pg_loop s s 0 0 k out) as [[st n] o]. exact E.
Qed.

(** ** Chunks fit for postgres *)
Definition pgck (buf : bytes) (c : chunk) : Prop :=
  (ck_argLen c = 0%nat -> no_qm (sl buf c)) /\ placeholders (sl buf c) = ck_argLen c /\ ends_bs (sl buf c) = false.

Lemma pg_fragment_spec t a : pg_fragment t a = true ->
  placeholders t = length a /\ (a = [] -> no_qm t) /\ ends_bs t = false.
Proof.
  unfold pg_fragment. rewrite !andb_true_iff, orb_true_iff, !negb_true_iff. intros [[H1 H2] H3].
  split; [apply Nat.eqb_eq; exact H1|]. split; [|exact H3].
  intros ->. destruct H2 as [H2|H2]; [discriminate|]. intros X. apply not_true_iff_false in H2. apply H2.
  apply existsb_exists. exists c_qm. split; [exact X|]. destruct (ascii_dec c_qm c_qm); [reflexivity|congruence].
Qed.

Lemma pgck_grow buf x c : valid buf c -> pgck buf c -> pgck (buf ++ x) c.
Proof. intros Hv H. unfold pgck. rewrite sl_grow by assumption. exact H. Qed.

Lemma Forall_pgck_grow buf x cs : Forall (valid buf) cs -> Forall (pgck buf) cs -> Forall (pgck (buf ++ x)) cs.
Proof.
  intros H1 H2. rewrite Forall_forall in *. intros c Hc. apply pgck_grow; auto.
Qed.

Lemma no_qm_app a b : no_qm a -> no_qm b -> no_qm (a ++ b).
Proof. unfold no_qm. rewrite in_app_iff. tauto. Qed.

Lemma ends_bs_app_false a b : ends_bs a = false -> ends_bs b = false -> ends_bs (a ++ b) = false.
Proof. intros Ha Hb. destruct b as [|c b]; [rewrite app_nil_r; exact Ha|]. rewrite ends_bs_app by congruence. exact Hb. Qed.

Lemma Rep_valid buf cs args h : Rep buf cs args h -> Forall (valid buf) cs.
Proof.
  intros (css & -> & H2 & _). induction H2 as [|p c0 ps css H1 H2 IH]; [constructor|].
  cbn [concat]. apply Forall_app; split; [exact (rg_valid _ _ _ _ H1)|exact IH].
Qed.

Lemma scan_match_nth pos rc : forall tail i t, scan pos rc tail = SMatch i t ->
  exists c, nth_error (rev rc) i = Some c /\ ck_pos c = pos.
Proof.
  induction rc as [|c rc IH]; intros tail i t; cbn [scan]; [discriminate|].
  destruct (Z.eqb_spec (ck_pos c) pos) as [E|E].
  - intros H; injection H as <- _. exists c. split; [|exact E]. cbn [rev].
    rewrite nth_error_app2 by (rewrite rev_length; lia). rewrite rev_length, Nat.sub_diag. reflexivity.
  - destruct (ck_pos c <? pos); [discriminate|]. intros H. destruct (IH _ _ _ H) as (d & Hd & Ed).
    exists d. split; [|exact Ed]. cbn [rev]. rewrite nth_error_app1; [exact Hd|]. apply nth_error_Some. congruence.
Qed.

Lemma Forall_insert {A} (P : A -> Prop) l i c : Forall P l -> P c -> Forall P (firstn i l ++ c :: skipn i l).
Proof.
  intros H Hc. rewrite <- (firstn_skipn i l) in H. apply Forall_app in H as [H1 H2].
  apply Forall_app; split; [exact H1|constructor; assumption].
Qed.
Lemma Forall_update {A} (P : A -> Prop) l i c : Forall P l -> P c -> Forall P (firstn i l ++ c :: skipn (S i) l).
Proof.
  intros H Hc. pose proof H as H'. rewrite <- (firstn_skipn i l) in H. apply Forall_app in H as [H1 _].
  rewrite <- (firstn_skipn (S i) l) in H'. apply Forall_app in H' as [_ H2].
  apply Forall_app; split; [exact H1|constructor; assumption].
Qed.

Lemma finish_chunk_same q args tail ix q' i : finish_chunk q args tail ix = Some (q', i) ->
  st_buf q' = st_buf q /\ st_chunks q' = st_chunks q.
Proof.
  unfold finish_chunk. destruct args as [|a r]; [intros H; injection H as <- _; auto|].
  destruct (insert_at _ _ _); [|discriminate]. intros H; injection H as <- _; auto.
Qed.

(** A clause not yet open makes the scan end with an insertion and conversely. *)
Lemma scan_open q h pos : Rep (st_buf q) (st_chunks q) (st_args q) h ->
  match scan pos (rev (st_chunks q)) 0 with
  | SMatch _ _ => at_pos pos h <> []
  | SInsert _ _ => at_pos pos h = []
  end.
Proof.
  intros (css & Hch & H2 & _). pose proof (positions_sorted h) as HS.
  destruct (ins_pos_cases pos _ HS) as [(ps1 & ps2 & Eps & Eins & F1 & F2)|(ps1 & ps2 & Eps & F1 & F2 & Eins)];
    rewrite Eps in H2.
  - assert (Hws : at_pos pos h <> []).
    { apply positions_in. rewrite Eps. apply in_or_app. right; left; reflexivity. }
    apply Forall2_app_inv_l in H2 as (css1 & csr & H21 & H2r & Ecss).
    inversion H2r as [|p0 cs ps0 css2 Hg H22 Ep0 Ecsr]; subst csr p0 ps0. clear H2r.
    destruct (last_split cs (rg_ne _ _ _ _ Hg)) as (cs' & c & Ecs).
    pose proof (forall2_chunk_pos _ _ _ _ _ H22 F2) as G2.
    assert (Hcp : ck_pos c = pos).
    { pose proof (rg_pos _ _ _ _ Hg) as Q. rewrite Ecs in Q. apply Forall_app in Q as [_ Q]. inversion Q; assumption. }
    replace (st_chunks q) with ((concat css1 ++ cs') ++ c :: concat css2).
    2: { rewrite Hch, Ecss, concat_app. cbn [concat]. rewrite Ecs, <- !app_assoc. reflexivity. }
    rewrite (scan_match pos _ c _ G2 Hcp). exact Hws.
  - apply Forall2_app_inv_l in H2 as (css1 & css2 & H21 & H22 & Ecss).
    pose proof (forall2_chunk_pos _ _ _ _ _ H22 F2) as G2.
    pose proof (forall2_chunk_pos _ _ _ _ _ H21 F1) as G1.
    rewrite Hch, Ecss, concat_app, (scan_insert pos _ _ G2 G1).
    destruct (at_pos pos h) eqn:E; [reflexivity|]. assert (Hin : In pos (positions h)) by (apply positions_in; congruence).
    rewrite Eps in Hin. apply in_app_or in Hin as [Hin|Hin].
    + rewrite Forall_forall in F1. specialize (F1 _ Hin). lia.
    + rewrite Forall_forall in F2. specialize (F2 _ Hin). lia.
Qed.

Lemma add_chunk_pg q h pos kw expr args sep q' i :
  Rep (st_buf q) (st_chunks q) (st_args q) h ->
  pg_write h (mkWrite pos (kw_text (st_nl q) kw) expr args sep) = true ->
  add_chunk q pos kw expr args sep = Some (q', i) ->
  Forall (pgck (st_buf q)) (st_chunks q) -> Forall (pgck (st_buf q')) (st_chunks q').
Proof.
  intros HR Hw HA HF. pose proof (Rep_valid _ _ _ _ HR) as HV.
  unfold pg_write in Hw. cbn [w_pos w_expr w_args w_sep] in Hw. apply andb_true_iff in Hw as [Hw Hsep].
  apply pg_fragment_spec in Hw as (W1 & W2 & W3). apply pg_fragment_spec in Hsep as (_ & W4 & W5).
  specialize (W4 eq_refl).
  pose proof (scan_open q h pos HR) as Hop.
  unfold add_chunk in HA. cbn [set_pos st_chunks st_buf st_args st_nl] in HA.
  destruct (scan pos (rev (st_chunks q)) 0) as [ix tail|ix tail] eqn:Es.
  - destruct (scan_match_nth _ _ _ _ _ Es) as (c & Hc & Hcp). rewrite rev_involutive in Hc. rewrite Hc in HA.
    assert (Hcin : In c (st_chunks q)) by (eapply nth_error_In; exact Hc).
    assert (Hcv : valid (st_buf q) c) by (rewrite Forall_forall in HV; auto).
    assert (Hcg : pgck (st_buf q) c) by (rewrite Forall_forall in HF; auto).
    destruct (at_pos pos h) as [|w0 wr]; [congruence|]. cbn [is_empty orb] in W1, W2, W3.
    destruct (is_empty expr) eqn:Ee.
    + destruct (0 <? length args)%nat.
      * match type of HA with (if ?b then _ else _) = _ => destruct b end; [discriminate|]. injection HA as <- _. exact HF.
      * injection HA as <- _. exact HF.
    + cbn [negb] in W1, W2.
      assert (Hsp : no_qm ((if ck_has c then sep else B " ") : list ascii) /\ ends_bs ((if ck_has c then sep else B " ") : list ascii) = false).
      { destruct (ck_has c); [split; assumption|]. split; [|reflexivity]. intros [X|[]]; discriminate. }
      destruct Hsp as [S1 S2]. rewrite <- app_assoc in HA.
      destruct (Nat.eqb_spec (ck_high c) (length (st_buf q))) as [Hadj|Hadj].
      * apply finish_chunk_same in HA as [E1 E2]. rewrite E1, E2.
        cbn [st_buf st_chunks set_chunks set_buf]. apply Forall_update; [apply Forall_pgck_grow; assumption|].
        unfold pgck. rewrite sl_extend by assumption. cbn [ck_argLen].
        destruct Hcg as (C1 & C2 & C3). split; [|split].
        -- intros E0. apply no_qm_app; [apply C1; lia|]. apply no_qm_app; [exact S1|]. apply W2.
           destruct args; [reflexivity|simpl in E0; lia].
        -- rewrite placeholders_app by (left; exact C3). rewrite placeholders_app by (left; exact S2).
           rewrite (placeholders_noqm _ S1), C2, W1. reflexivity.
        -- apply ends_bs_app_false; [exact C3|]. apply ends_bs_app_false; assumption.
      * apply finish_chunk_same in HA as [E1 E2]. rewrite E1, E2.
        cbn [st_buf st_chunks set_chunks set_buf]. apply Forall_insert; [apply Forall_pgck_grow; assumption|].
        unfold pgck. rewrite sl_new. cbn [ck_argLen]. split; [|split].
        -- intros E0. apply no_qm_app; [exact S1|]. apply W2. destruct args; [reflexivity|discriminate].
        -- rewrite placeholders_app by (left; exact S2). rewrite (placeholders_noqm _ S1), W1. reflexivity.
        -- apply ends_bs_app_false; assumption.
  - rewrite Hop in W1, W2, W3. cbn [is_empty orb] in W1, W2, W3.
    apply finish_chunk_same in HA as [E1 E2]. rewrite E1, E2.
    cbn [st_buf st_chunks set_chunks set_buf]. apply Forall_insert; [apply Forall_pgck_grow; assumption|].
    unfold pgck. rewrite sl_new. cbn [ck_argLen].
    replace ((if is_empty kw then [] else _) ++ expr) with (first_text (mkWrite pos (kw_text (st_nl q) kw) expr args sep)).
    + split; [|split; assumption]. intros E0. apply W2. destruct args; [reflexivity|discriminate].
    + unfold first_text. cbn [w_kw w_expr]. rewrite is_empty_kw_text. unfold kw_text.
      destruct (is_empty kw); [reflexivity|]. cbn [orb].
      destruct (st_nl q), (is_empty expr); rewrite <- ?app_assoc; reflexivity.
Qed.

Lemma pg_hist_snoc ws : forall h w, pg_hist h (ws ++ [w]) = pg_hist h ws && pg_write (h ++ ws) w.
Proof.
  induction ws as [|v ws IH]; intros h w; cbn [app pg_hist].
  - rewrite app_nil_r, andb_true_r. reflexivity.
  - rewrite IH, andb_assoc, <- app_assoc. reflexivity.
Qed.
