(** Proofs about the ID model. *)
From Verif Require Import GoBase GoBaseFacts IdModel IdSpec.
From Coq Require Import Sorted Permutation.
Open Scope Z_scope.

(** ** Decimal text *)
Lemma digit_of c : is_digit c -> dec_digit c = Some (Z.of_nat (nat_of_ascii c) - 48).
Proof.
  intros [H1 H2]. unfold dec_digit. destruct (_ && _) eqn:E; [reflexivity|].
  apply Bool.andb_false_iff in E. rewrite Z.leb_gt, Z.leb_gt in E. lia.
Qed.
Lemma digit_inv c d : dec_digit c = Some d -> is_digit c /\ d = Z.of_nat (nat_of_ascii c) - 48.
Proof.
  unfold dec_digit, is_digit. destruct (_ && _) eqn:E; [|discriminate]. intros H. injection H as <-.
  apply Bool.andb_true_iff in E. rewrite !Z.leb_le in E. lia.
Qed.
Lemma dvf_spec s : forall acc v, dec_value_from acc s = Some v <->
  Forall is_digit s /\ v = fold_left (fun a c => 10 * a + (Z.of_nat (nat_of_ascii c) - 48)) s acc.
Proof.
  induction s as [|c s IH]; intros acc v; cbn [dec_value_from fold_left].
  - split; [intros H; injection H as <-; split; [constructor|reflexivity]|intros [_ ->]; reflexivity].
  - destruct (dec_digit c) as [d|] eqn:E.
    + apply digit_inv in E as [E ->]. rewrite IH. replace (acc * 10 + (Z.of_nat (nat_of_ascii c) - 48)) with (10 * acc + (Z.of_nat (nat_of_ascii c) - 48)) by lia.
      split; intros [H1 H2]; split; try assumption; [constructor; assumption|inversion H1; assumption].
    + split; [discriminate|]. intros [H _]. inversion H; subst. rewrite digit_of in E by assumption. discriminate.
Qed.
Lemma dec_val_nonneg s : is_dec s -> 0 <= dec_val s.
Proof.
  intros [_ H]. destruct (dvf_spec s 0 (dec_val s)) as [_ G]. specialize (G (conj H eq_refl)).
  exact (dec_value_from_ge s 0 _ ltac:(lia) G).
Qed.
Lemma parse_uint_iff bits s v : 0 <= bits -> parse_uint bits s = Some v <-> is_dec s /\ v = dec_val s /\ v < 2 ^ bits.
Proof.
  intros Hb. rewrite parse_uint_spec by assumption. unfold is_dec. destruct s as [|c s].
  - split; [discriminate|intros [[H _] _]; congruence].
  - destruct (dec_value_from 0 (c :: s)) as [w|] eqn:E.
    + apply dvf_spec in E as [E1 ->]. fold (dec_val (c :: s)).
      destruct (dec_val (c :: s) <? 2 ^ bits) eqn:E2; [apply Z.ltb_lt in E2|apply Z.ltb_ge in E2].
      * split; [intros H; injection H as <-; repeat split; [discriminate|assumption|assumption]|intros (_ & -> & _); reflexivity].
      * split; [discriminate|intros (_ & -> & H); lia].
    + split; [discriminate|]. intros [[_ H] _]. destruct (dvf_spec (c :: s) 0 (dec_val (c :: s))) as [_ G].
      rewrite G in E by (split; [assumption|reflexivity]). discriminate.
Qed.
Lemma parse_uint_none bits s : 0 <= bits -> parse_uint bits s = None <-> ~ (is_dec s /\ dec_val s < 2 ^ bits).
Proof.
  intros Hb. destruct (parse_uint bits s) as [v|] eqn:E.
  - apply parse_uint_iff in E as (E1 & -> & E2); [|assumption]. split; [discriminate|tauto].
  - split; [|reflexivity]. intros _ [H1 H2]. assert (parse_uint bits s = Some (dec_val s)) by (apply parse_uint_iff; auto). congruence.
Qed.

Lemma fmt_uint_head n : 0 < n -> forall r, fmt_uint 10 n <> ascii_of_nat 48 :: r.
Proof.
  intros Hn. assert (H : 0 <= n) by lia. revert Hn.
  apply (fmt_uint_ind (fun n s => 0 < n -> forall r, s <> ascii_of_nat 48 :: r) 10); [lia| | |exact H].
  - intros m Hm Hp r E. injection E as E. change (ascii_of_nat 48) with (digit_char 0) in E. apply digit_char_inj in E; lia.
  - intros m Hm IH Hp r E. assert (Hq : 0 < m / 10) by (apply Z.div_str_pos; lia).
    destruct (fmt_uint 10 (m / 10)) as [|c t] eqn:Ef; [exact (fmt_uint_nonempty 10 (m / 10) ltac:(lia) ltac:(lia) Ef)|].
    cbn [app] in E. injection E as -> _. exact (IH Hq t eq_refl).
Qed.
Lemma fmt_uint_dec n : 0 <= n -> is_dec (fmt_uint 10 n) /\ dec_val (fmt_uint 10 n) = n.
Proof.
  intros H. pose proof (dec_value_fmt n H) as E. apply dvf_spec in E as [E1 E2].
  split; [split; [apply fmt_uint_nonempty; lia|exact E1]|symmetry; exact E2].
Qed.
Lemma fmt_uint_canonical n : 0 <= n -> canonical (fmt_uint 10 n) n.
Proof.
  intros H. destruct (fmt_uint_dec n H) as [H1 H2]. split; [exact H1|split; [exact H2|]].
  destruct (Z.eq_dec n 0) as [->|]; [left; reflexivity|right; apply fmt_uint_head; lia].
Qed.

(** Values of digit strings, for uniqueness of the canonical form. *)
Lemma dv_app s c : dec_val (s ++ [c]) = 10 * dec_val s + (Z.of_nat (nat_of_ascii c) - 48).
Proof. unfold dec_val. rewrite fold_left_app. reflexivity. Qed.
Lemma digit_char_of c : is_digit c -> digit_char (Z.of_nat (nat_of_ascii c) - 48) = c.
Proof. intros H. apply digit_of in H. apply dec_digit_range in H as [_ H]. symmetry. exact H. Qed.
Lemma dec_zero s : is_dec s -> dec_val s = 0 -> exists r, s = ascii_of_nat 48 :: r.
Proof.
  revert s. apply (rev_ind (fun s => is_dec s -> dec_val s = 0 -> exists r, s = ascii_of_nat 48 :: r)).
  - intros [H _]. congruence.
  - intros c s IH [_ H] Hz. apply Forall_app in H as [H1 H2]. inversion H2 as [|? ? Hc]; subst.
    rewrite dv_app in Hz. destruct s as [|d s].
    + exists []. cbn [app]. unfold dec_val in Hz. cbn [fold_left] in Hz. rewrite <- (digit_char_of c Hc).
      replace (Z.of_nat (nat_of_ascii c) - 48) with 0 by lia. reflexivity.
    + assert (Hd : is_dec (d :: s)) by (split; [discriminate|assumption]).
      pose proof (dec_val_nonneg _ Hd). unfold is_digit in Hc. destruct (IH Hd ltac:(lia)) as [r Hr].
      rewrite Hr. exists (r ++ [c]). reflexivity.
Qed.
Lemma canonical_unique s n : canonical s n -> s = fmt_uint 10 n.
Proof.
  revert n. revert s. apply (rev_ind (fun s => forall n, canonical s n -> s = fmt_uint 10 n)).
  - intros n [[H _] _]. congruence.
  - intros c s IH n (Hd & Hv & Hz). destruct Hd as [_ HF]. apply Forall_app in HF as [HF Hc]. inversion Hc as [|? ? Hc1]; subst.
    destruct s as [|d s].
    + cbn [app]. unfold dec_val. cbn [fold_left]. unfold is_digit in Hc1.
      rewrite fmt_uint_small by lia. f_equal. rewrite Z.mul_0_r, Z.add_0_l. symmetry. apply digit_char_of. exact Hc1.
    + destruct Hz as [Hz|Hz]; [exfalso; apply (f_equal (@length _)) in Hz; rewrite app_length in Hz; cbn in Hz; lia|].
      assert (Hds : is_dec (d :: s)) by (split; [discriminate|assumption]).
      assert (Hh : forall r, d :: s <> ascii_of_nat 48 :: r).
      { intros r E. injection E as -> ->. exact (Hz (r ++ [c]) eq_refl). }
      assert (Hp : 0 < dec_val (d :: s)).
      { pose proof (dec_val_nonneg _ Hds). destruct (Z.eq_dec (dec_val (d :: s)) 0) as [E|]; [|lia].
        destruct (dec_zero _ Hds E) as [r Hr]. destruct (Hh r Hr). }
      rewrite dv_app. unfold is_digit in Hc1.
      rewrite fmt_uint_step by lia.
      replace ((10 * dec_val (d :: s) + (Z.of_nat (nat_of_ascii c) - 48)) / 10) with (dec_val (d :: s))
        by (apply (Z.div_unique_pos _ 10 _ (Z.of_nat (nat_of_ascii c) - 48)); lia).
      replace ((10 * dec_val (d :: s) + (Z.of_nat (nat_of_ascii c) - 48)) mod 10) with (Z.of_nat (nat_of_ascii c) - 48)
        by (apply (Z.mod_unique_pos _ 10 (dec_val (d :: s)) _); lia).
      rewrite digit_char_of by exact Hc1. rewrite <- (IH (dec_val (d :: s))); [reflexivity|].
      split; [exact Hds|split; [reflexivity|right; exact Hh]].
Qed.

(** ** Trimming quotes *)
Lemma in_set_quote c : in_set [dquote] c = false <-> c <> dquote.
Proof.
  unfold in_set. cbn [existsb]. destruct (ascii_dec c dquote) as [e|e]; cbn [orb]; split; intros; congruence.
Qed.
Lemma trim_none s : Forall (fun c => c <> dquote) s -> trim [dquote] s = s.
Proof.
  intros H. unfold trim, trim_right.
  assert (G : forall l, Forall (fun c => c <> dquote) l -> trim_left [dquote] l = l).
  { intros l Hl. destruct Hl as [|c l Hc Hl]; [reflexivity|]. apply trim_left_head. apply in_set_quote. exact Hc. }
  rewrite (G s H), (G (rev s)), rev_involutive; [reflexivity|]. apply Forall_rev. exact H.
Qed.
Lemma trim_quoted s : Forall (fun c => c <> dquote) s -> trim [dquote] ([dquote] ++ s ++ [dquote]) = s.
Proof.
  intros H. unfold trim, trim_right.
  assert (Q : in_set [dquote] dquote = true) by reflexivity.
  assert (G : forall l, Forall (fun c => c <> dquote) l -> trim_left [dquote] l = l).
  { intros l Hl. destruct Hl as [|c l Hc Hl]; [reflexivity|]. apply trim_left_head. apply in_set_quote. exact Hc. }
  cbn [app trim_left]. rewrite Q. destruct s as [|c s].
  - cbn [app trim_left]. rewrite Q. reflexivity.
  - inversion H; subst. rewrite trim_left_noop_app; [|discriminate|apply trim_left_head, in_set_quote; assumption].
    rewrite rev_app_distr. cbn [rev app trim_left]. rewrite Q. rewrite G; [|change (rev s ++ [c]) with (rev (c :: s)); apply Forall_rev; assumption].
    change (rev s ++ [c]) with (rev (c :: s)). apply rev_involutive.
Qed.
Lemma digits_unquoted s : Forall is_digit s -> Forall (fun c => c <> dquote) s.
Proof. apply Forall_impl. intros c [H _] E. subst c. vm_compute in H. lia. Qed.
Lemma fmt_unquoted n : 0 <= n -> Forall (fun c => c <> dquote) (fmt_uint 10 n).
Proof. intros H. apply digits_unquoted. apply fmt_uint_dec. exact H. Qed.

(** ** Cells *)
Lemma zero_text s : is_empty s || beqb s (B "0") = true -> is_dec s -> dec_val s = 0.
Proof.
  intros H [H1 _]. apply orb_true_iff in H as [H|H]; [apply is_empty_true in H; congruence|].
  apply beqb_eq in H. subst s. reflexivity.
Qed.
Lemma id_set_spec v s : let '(w, ok) := id_set v s in
  (ok = true <-> is_dec s /\ 1 <= dec_val s < 2 ^ 64) /\
  (ok = true -> w = Some (mkIdptr (dec_val s) [])) /\ (ok = false -> w = v).
Proof.
  unfold id_set, go_parse_uint. destruct (is_empty s || beqb s (B "0")) eqn:E.
  - split; [split; [discriminate|]|split; [discriminate|reflexivity]]. intros [H1 H2]. pose proof (zero_text _ E H1). lia.
  - destruct (parse_uint 64 s) as [n|] eqn:En.
    + apply parse_uint_iff in En as (H1 & -> & H2); [|lia]. pose proof (dec_val_nonneg _ H1).
      destruct (dec_val s =? 0) eqn:Ez; [apply Z.eqb_eq in Ez|apply Z.eqb_neq in Ez].
      * split; [split; [discriminate|lia]|split; [discriminate|reflexivity]].
      * split; [split; [intros _; split; [assumption|lia]|reflexivity]|split; [reflexivity|discriminate]].
    + apply parse_uint_none in En; [|lia]. split; [split; [discriminate|]|split; [discriminate|reflexivity]]. intros [H1 H2]. tauto.
Qed.
Lemma id_new_val n : 0 <= n -> id_val (id_new n) = n.
Proof. intros H. unfold id_new. destruct (0 <? n) eqn:E; [reflexivity|apply Z.ltb_ge in E; cbn; lia]. Qed.
Lemma id_new_string n : 0 <= n -> fst (id_string (id_new n)) = if n =? 0 then [] else fmt_uint 10 n.
Proof.
  intros H. unfold id_new. destruct (0 <? n) eqn:E; [apply Z.ltb_lt in E|apply Z.ltb_ge in E].
  - cbn. destruct (n =? 0) eqn:En; [apply Z.eqb_eq in En; lia|reflexivity].
  - replace n with 0 by lia. reflexivity.
Qed.
Lemma id_string_val v : id_val (snd (id_string v)) = id_val v.
Proof. destruct v; reflexivity. Qed.

Definition cell_ok (p : idptr) : Prop := uint64 (ip_id p).
Definition cell_canon (p : idptr) : Prop := ip_str p = [] \/ ip_str p = fmt_uint 10 (ip_id p).
Definition cont_all (P : idptr -> Prop) (v : idc) : Prop := match v with None => True | Some p => P p end.

Lemma id_new_all n (P : idptr -> Prop) : (0 < n -> P (mkIdptr n [])) -> cont_all P (id_new n).
Proof. unfold id_new. destruct (0 <? n) eqn:E; cbn; [intros H; apply H; apply Z.ltb_lt; exact E|trivial]. Qed.

Lemma upd_length {A} (l : list A) i y : length (upd l i y) = length l.
Proof. revert i. induction l as [|h l IH]; intros [|i]; cbn; [reflexivity..|rewrite IH; reflexivity]. Qed.
Lemma upd_nth_same {A} (l : list A) i y d : (i < length l)%nat -> nth i (upd l i y) d = y.
Proof. revert i. induction l as [|h l IH]; intros [|i] H; cbn in *; [lia|lia|reflexivity|apply IH; lia]. Qed.
Lemma upd_nth_other {A} (l : list A) i j y d : i <> j -> nth j (upd l i y) d = nth j l d.
Proof. revert i j. induction l as [|h l IH]; intros [|i] [|j] H; cbn; try congruence. apply IH. congruence. Qed.
Lemma upd_nth_error_same {A} (l : list A) i y : (i < length l)%nat -> nth_error (upd l i y) i = Some y.
Proof. revert i. induction l as [|h l IH]; intros [|i] H; cbn in *; [lia|lia|reflexivity|apply IH; lia]. Qed.
Lemma upd_nth_error_other {A} (l : list A) i j y : i <> j -> nth_error (upd l i y) j = nth_error l j.
Proof. revert i j. induction l as [|h l IH]; intros [|i] [|j] H; cbn; try congruence. apply IH. congruence. Qed.
Lemma upd_Forall {A} (P : A -> Prop) (l : list A) i y : Forall P l -> P y -> Forall P (upd l i y).
Proof. intros H Hy. revert i. induction H; intros [|i]; cbn; constructor; auto. Qed.

(** ** The variables machine *)
Definition addr_ok (h : list idptr) (a : option nat) : Prop := match a with None => True | Some n => (n < length h)%nat end.
Definition wf (s : ivars) : Prop := Forall (addr_ok (iv_heap s)) (iv_vars s).
Definition cells (P : idptr -> Prop) (s : ivars) : Prop := Forall P (iv_heap s).

Lemma wf_get s x : wf s -> addr_ok (iv_heap s) (iv_get s x).
Proof.
  intros H. unfold iv_get. destruct (nth_in_or_default x (iv_vars s) None) as [G|G]; [|rewrite G; exact I].
  exact (proj1 (Forall_forall _ _) H _ G).
Qed.
Lemma content_all P s x : cells P s -> cont_all P (iv_content s x).
Proof.
  intros H. unfold iv_content, iv_load. destruct (iv_get s x) as [n|]; [|exact I].
  destruct (nth_error (iv_heap s) n) as [p|] eqn:E; [|exact I]. apply nth_error_In in E. exact (proj1 (Forall_forall _ _) H _ E).
Qed.
Lemma wf_grow h h' a : (length h <= length h')%nat -> addr_ok h a -> addr_ok h' a.
Proof. destruct a; cbn; lia || trivial. Qed.
Lemma fresh_wf s x c : wf s -> wf (iv_fresh s x c).
Proof.
  intros H. destruct c as [p|]; unfold wf; cbn [iv_fresh iv_vars iv_heap].
  - apply upd_Forall; [|cbn; rewrite app_length; cbn; lia].
    eapply Forall_impl; [|exact H]. intros a. apply wf_grow. rewrite app_length. lia.
  - apply upd_Forall; [exact H|exact I].
Qed.
Lemma inplace_wf s x c : wf s -> wf (iv_inplace s x c).
Proof.
  intros H. destruct c as [p|]; [|exact H]. cbn [iv_inplace]. destruct (iv_get s x); [|apply fresh_wf; exact H].
  unfold wf. cbn. eapply Forall_impl; [|exact H]. intros a. apply wf_grow. rewrite upd_length. lia.
Qed.
Lemma step_wf s o : wf s -> wf (iv_step s o).
Proof.
  intros H. destruct o as [x n|x y|x t|x|x v|x d|x r|x]; cbn [iv_step].
  - apply fresh_wf, H.
  - unfold wf. cbn. apply upd_Forall; [exact H|apply wf_get, H].
  - destruct (id_set _ t) as [c [|]]; [apply inplace_wf, H|exact H].
  - apply inplace_wf, H.
  - destruct v; cbn [id_scan]; try exact H; apply fresh_wf, H.
  - destruct (id_unjson _ d) as [c [|]]; [apply fresh_wf, H|exact H].
  - destruct (id_unyaml _ r) as [c [|]]; [apply fresh_wf, H|exact H].
  - apply inplace_wf, H.
Qed.
Lemma fresh_cells P s x c : cells P s -> cont_all P c -> cells P (iv_fresh s x c).
Proof. intros H Hc. destruct c as [p|]; [|exact H]. apply Forall_app. split; [exact H|constructor; [exact Hc|constructor]]. Qed.
Lemma inplace_cells P s x c : cells P s -> cont_all P c -> cells P (iv_inplace s x c).
Proof.
  intros H Hc. destruct c as [p|]; [|exact H]. cbn [iv_inplace]. destruct (iv_get s x); [|apply fresh_cells; assumption].
  apply upd_Forall; assumption.
Qed.
(** Which contents the operations store. *)
Lemma step_cells (P : idptr -> Prop) s o : cells P s -> op_ok o ->
  (forall n, 0 < n < 2 ^ 64 -> P (mkIdptr n [])) -> P (mkIdptr 0 []) ->
  (forall p, P p -> P (mkIdptr (ip_id p) (if negb (ip_id p =? 0) && is_empty (ip_str p) then fmt_uint 10 (ip_id p) else ip_str p))) ->
  (forall x d, o = OpUnJson x d -> forall n s, parse_uint 64 s = Some n -> P (mkIdptr n s)) ->
  cells P (iv_step s o).
Proof.
  intros H Ho Hn H0 Hs Hj. destruct o as [x n|x y|x t|x|x v|x d|x r|x]; cbn [iv_step].
  - apply fresh_cells; [exact H|]. apply id_new_all. cbn in Ho. unfold uint64 in Ho. intros. apply Hn. lia.
  - exact H.
  - pose proof (id_set_spec (iv_content s x) t) as G. destruct (id_set (iv_content s x) t) as [c [|]]; [|exact H].
    destruct G as (G1 & G2 & _). rewrite (G2 eq_refl). apply inplace_cells; [exact H|]. apply Hn. apply proj1 in G1. specialize (G1 eq_refl). lia.
  - apply inplace_cells; [exact H|exact H0].
  - destruct v as [|z|z|z|z|z|s'|s'|b|z|z|s' v|z]; cbn [id_scan]; try exact H; (apply fresh_cells; [exact H|]); apply id_new_all; intros;
      apply Hn; cbn in Ho; try (unfold uint64 in Ho; lia); pose proof (wrap_u_range 64 z ltac:(lia)) as R; unfold u64 in *; lia.
  - unfold id_unjson. destruct (is_empty _ || _); [apply fresh_cells; [exact H|exact I]|]. unfold go_parse_uint.
    destruct (parse_uint 64 (trim [dquote] d)) as [n|] eqn:E; [|exact H]. apply fresh_cells; [exact H|]. exact (Hj x d eq_refl n _ E).
  - destruct r as [n|]; [|exact H]. cbn [id_unyaml]. apply fresh_cells; [exact H|]. apply id_new_all. cbn in Ho. unfold uint64 in Ho. intros. apply Hn. lia.
  - apply inplace_cells; [exact H|]. pose proof (content_all P s x H) as G. destruct (iv_content s x) as [p|]; [|exact I]. cbn. apply Hs, G.
Qed.
Lemma run_inv (I : ivars -> Prop) (Q : iop -> Prop) l : (forall s o, I s -> Q o -> I (iv_step s o)) ->
  forall s, I s -> Forall Q l -> I (iv_run s l).
Proof. intros HI. induction l as [|o l IH]; intros s H HQ; [exact H|]. inversion HQ; subst. cbn. apply IH; auto. Qed.
Lemma run_wf l s : wf s -> wf (iv_run s l).
Proof. intros H. apply (run_inv wf (fun _ => True)); [intros; apply step_wf; assumption|exact H|apply Forall_forall; trivial]. Qed.
Lemma init_wf k : wf (iv_init k).
Proof. unfold wf, iv_init. cbn. apply Forall_forall. intros a H. apply repeat_spec in H. subst a. exact I. Qed.

Lemma reachable_ok v : reachable_id v -> id_ok v.
Proof.
  intros (k & l & x & Hl & ->). assert (G : cells cell_ok (iv_run (iv_init k) l)).
  { apply (run_inv (cells cell_ok) op_ok); [|constructor|exact Hl]. intros s o Hs Ho. apply step_cells; auto.
    - unfold cell_ok, uint64. cbn. lia.
    - unfold cell_ok, uint64. cbn. lia.
    - intros _ _ _ n t E. apply parse_uint_iff in E as (E1 & -> & E2); [|lia]. pose proof (dec_val_nonneg _ E1). unfold cell_ok, uint64. cbn [ip_id]. lia. }
  pose proof (content_all _ _ x G) as H. unfold id_ok. destruct (iv_content _ x) as [p|]; [exact H|]. unfold uint64. cbn. lia.
Qed.
Lemma canon_cell_string p : cell_canon p -> cell_canon (mkIdptr (ip_id p) (if negb (ip_id p =? 0) && is_empty (ip_str p) then fmt_uint 10 (ip_id p) else ip_str p)).
Proof. unfold cell_canon. intros H. destruct (negb _ && _); cbn; [right; reflexivity|exact H]. Qed.
(** In plain programs the cached text is canonical, and there is none for zero. *)
Definition cell_plain (p : idptr) : Prop := cell_canon p /\ (ip_id p = 0 -> ip_str p = []).
Lemma reachable_plain_canon v : reachable_plain v -> cont_all cell_plain v.
Proof.
  intros (k & l & x & Hl & Hj & ->). assert (G : cells cell_plain (iv_run (iv_init k) l)).
  { apply (run_inv (cells cell_plain) (fun o => op_ok o /\ no_json o)); [|constructor|].
    - intros s o Hs [Ho Hn]. apply step_cells; auto.
      + intros n Hr. split; [left; reflexivity|reflexivity].
      + split; [left; reflexivity|reflexivity].
      + intros p [Hp1 Hp2]. split; [apply canon_cell_string, Hp1|]. cbn. intros E. rewrite E. cbn. apply Hp2, E.
      + intros y d ->. destruct Hn.
    - apply Forall_forall. intros o Ho. split; [exact (proj1 (Forall_forall _ _) Hl o Ho)|exact (proj1 (Forall_forall _ _) Hj o Ho)]. }
  exact (content_all _ _ x G).
Qed.
Lemma plain_string v : cont_all cell_plain v -> fst (id_string v) = if id_val v =? 0 then [] else fmt_uint 10 (id_val v).
Proof.
  destruct v as [[n s]|]; [|reflexivity]. cbn. intros [[H|H] H0]; cbn in *.
  - subst s. destruct (n =? 0); reflexivity.
  - destruct (n =? 0) eqn:E; [apply Z.eqb_eq in E; cbn; auto|]. destruct (is_empty s); cbn; [reflexivity|exact H].
Qed.

(** ** JSON and driver values *)
Lemma unjson_digits v w s data : 0 <= w < 2 ^ 64 -> trim [dquote] data = s -> s = fmt_uint 10 w ->
  id_val (fst (id_unjson v data)) = w /\ snd (id_unjson v data) = true /\
  fst (id_string (fst (id_unjson v data))) = if w =? 0 then [] else fmt_uint 10 w.
Proof.
  intros Hw Ht Hs. unfold id_unjson. rewrite Ht. destruct (is_empty s || beqb s (B "0")) eqn:E.
  - pose proof (fmt_uint_dec w ltac:(lia)) as [D1 D2]. rewrite <- Hs in D1, D2. rewrite (zero_text _ E D1) in D2. subst w. repeat split.
  - unfold go_parse_uint. rewrite Hs, parse_uint_fmt by lia. cbn [fst snd id_val ip_id]. split; [reflexivity|split; [reflexivity|]].
    cbn [id_string ip_id ip_str fst]. destruct (w =? 0) eqn:Ew.
    + apply Z.eqb_eq in Ew. subst w. rewrite Hs in E. vm_compute in E. discriminate.
    + assert (Hne : is_empty (fmt_uint 10 w) = false) by (apply is_empty_false, fmt_uint_nonempty; lia). rewrite Hne. reflexivity.
Qed.
Lemma unjson_inv v data : let '(w, ok) := id_unjson v data in
  let s := trim [dquote] data in
  (ok = true <-> s = [] \/ (is_dec s /\ dec_val s < 2 ^ 64)) /\ (ok = false -> w = v) /\
  (ok = true -> id_val w = if is_empty s then 0 else dec_val s).
Proof.
  unfold id_unjson, go_parse_uint. set (s := trim [dquote] data). destruct (is_empty s || beqb s (B "0")) eqn:E.
  - split; [split; [|reflexivity]|split; [discriminate|]].
    + intros _. apply orb_true_iff in E as [E|E]; [left; apply is_empty_true, E|right]. apply beqb_eq in E. rewrite E. split; [|reflexivity].
      split; [discriminate|repeat constructor; vm_compute; discriminate].
    + intros _. destruct (is_empty s) eqn:Ee; [reflexivity|]. cbn in E. apply beqb_eq in E. rewrite E. reflexivity.
  - apply orb_false_iff in E as [E1 E2]. destruct (parse_uint 64 s) as [n|] eqn:En.
    + apply parse_uint_iff in En as (H1 & -> & H2); [|lia]. rewrite E1. repeat split; auto; discriminate.
    + apply parse_uint_none in En; [|lia]. split; [split; [discriminate|]|split; [reflexivity|discriminate]].
      intros [H|H]; [rewrite H in E1; discriminate|tauto].
Qed.
Lemma value_scan v : id_ok v -> id_scan None (id_value v) = (id_new (id_val v), true).
Proof.
  intros H. unfold id_value. destruct (id_val v =? 0) eqn:E; [apply Z.eqb_eq in E; rewrite E; reflexivity|].
  cbn [id_scan]. unfold u64, i64. rewrite wrap_u_s, wrap_u_id by (unfold id_ok, uint64 in H; lia). reflexivity.
Qed.

(** ** Copies *)
Lemma fresh_other s x c y : x <> y -> wf s -> iv_uint64 (iv_fresh s x c) y = iv_uint64 s y.
Proof.
  intros Hxy Hw. unfold iv_uint64, iv_content, iv_get. pose proof (wf_get s y Hw) as Ha. unfold iv_get in Ha.
  destruct c as [p|]; cbn [iv_fresh iv_vars iv_heap]; rewrite upd_nth_other by assumption; [|reflexivity].
  destruct (nth y (iv_vars s) None) as [a|]; [|reflexivity]. unfold iv_load. cbn [iv_heap]. rewrite nth_error_app1 by exact Ha. reflexivity.
Qed.
Lemma string_uint64 s x y : wf s -> iv_uint64 (iv_step s (OpString x)) y = iv_uint64 s y.
Proof.
  intros Hw. cbn [iv_step]. unfold iv_inplace. destruct (iv_content s x) as [p|] eqn:Ex; [|reflexivity]. cbn [id_string snd].
  unfold iv_content in Ex. destruct (iv_get s x) as [a|] eqn:Ea; [|discriminate]. cbn [iv_load] in Ex.
  unfold iv_uint64, iv_content, iv_get. cbn [iv_vars]. destruct (nth y (iv_vars s) None) as [b|]; [|reflexivity]. cbn [iv_load iv_heap].
  destruct (Nat.eq_dec a b) as [->|Hab]; [|rewrite upd_nth_error_other by assumption; reflexivity].
  rewrite Ex, upd_nth_error_same; [reflexivity|]. apply nth_error_Some. rewrite Ex. discriminate.
Qed.
Lemma quiet_step s o y : wf s -> quiet o -> op_target o <> y -> iv_uint64 (iv_step s o) y = iv_uint64 s y.
Proof.
  intros Hw Hq Hy. destruct o as [x n|x z|x t|x|x v|x d|x r|x]; cbn in Hy, Hq; try destruct Hq.
  - apply fresh_other; assumption.
  - unfold iv_uint64, iv_content, iv_get. cbn. rewrite upd_nth_other by assumption. reflexivity.
  - cbn [iv_step]. destruct v; cbn [id_scan]; try reflexivity; apply fresh_other; assumption.
  - cbn [iv_step]. destruct (id_unjson _ d) as [c [|]]; [apply fresh_other; assumption|reflexivity].
  - cbn [iv_step]. destruct (id_unyaml _ r) as [c [|]]; [apply fresh_other; assumption|reflexivity].
  - apply string_uint64. exact Hw.
Qed.
Lemma quiet_run l : forall s y, wf s -> Forall quiet l -> Forall (fun o => op_target o <> y) l ->
  iv_uint64 (iv_run s l) y = iv_uint64 s y.
Proof.
  induction l as [|o l IH]; intros s y Hw Hq Ht; [reflexivity|]. inversion Hq; inversion Ht; subst. change (iv_run s (o :: l)) with (iv_run (iv_step s o) l).
  rewrite IH by (try apply step_wf; assumption). apply quiet_step; assumption.
Qed.

(** Without copies no two variables share a cell. *)
Definition apart (s : ivars) : Prop := forall x y a, x <> y -> iv_get s x = Some a -> iv_get s y <> Some a.
Lemma fresh_get s x c y : wf s -> iv_get (iv_fresh s x c) y =
  if Nat.eq_dec x y then if (x <? length (iv_vars s))%nat then match c with None => None | Some _ => Some (length (iv_heap s)) end else iv_get s y
  else iv_get s y.
Proof.
  intros _. unfold iv_get. assert (G : forall z, nth y (upd (iv_vars s) x z) None = if Nat.eq_dec x y then if (x <? length (iv_vars s))%nat then z else nth y (iv_vars s) None else nth y (iv_vars s) None).
  { intros z. destruct (Nat.eq_dec x y) as [->|Hn]; [|apply upd_nth_other; assumption].
    destruct (y <? length (iv_vars s))%nat eqn:E; [apply Nat.ltb_lt in E; apply upd_nth_same; assumption|].
    apply Nat.ltb_ge in E. rewrite !nth_overflow; [reflexivity|assumption|rewrite upd_length; assumption]. }
  destruct c; cbn [iv_fresh iv_vars]; apply G.
Qed.
Lemma fresh_apart s x c : wf s -> apart s -> apart (iv_fresh s x c).
Proof.
  intros Hw Ha y z a Hyz Hy Hz. rewrite fresh_get in Hy, Hz by assumption.
  assert (B : forall v b, iv_get s v = Some b -> (b < length (iv_heap s))%nat) by (intros v b E; pose proof (wf_get s v Hw) as G; rewrite E in G; exact G).
  destruct (Nat.eq_dec x y) as [e1|e1], (Nat.eq_dec x z) as [e2|e2]; try congruence; try subst x.
  - destruct (y <? length (iv_vars s))%nat; [|exact (Ha y z a Hyz Hy Hz)]. destruct c; [|discriminate]. injection Hy as <-. apply B in Hz. lia.
  - destruct (z <? length (iv_vars s))%nat; [|exact (Ha y z a Hyz Hy Hz)]. destruct c; [|discriminate]. injection Hz as <-. apply B in Hy. lia.
  - exact (Ha y z a Hyz Hy Hz).
Qed.
Lemma inplace_apart s x c : wf s -> apart s -> apart (iv_inplace s x c).
Proof.
  intros Hw Ha. destruct c as [p|]; [|exact Ha]. cbn [iv_inplace]. destruct (iv_get s x); [|apply fresh_apart; assumption].
  intros y z a. exact (Ha y z a).
Qed.
Lemma step_apart s o : wf s -> apart s -> no_copy o -> apart (iv_step s o).
Proof.
  intros Hw Ha Hc. destruct o as [x n|x z|x t|x|x v|x d|x r|x]; cbn in Hc |- *; try destruct Hc.
  - apply fresh_apart; assumption.
  - destruct (id_set _ t) as [c [|]]; [apply inplace_apart|]; assumption.
  - apply inplace_apart with (c := Some _); assumption.
  - destruct v; cbn [id_scan]; try exact Ha; apply fresh_apart; assumption.
  - destruct (id_unjson _ d) as [c [|]]; [apply fresh_apart|]; assumption.
  - destruct (id_unyaml _ r) as [c [|]]; [apply fresh_apart|]; assumption.
  - apply inplace_apart; assumption.
Qed.
Lemma inplace_other s x c y : x <> y -> wf s -> apart s -> iv_uint64 (iv_inplace s x c) y = iv_uint64 s y.
Proof.
  intros Hxy Hw Ha. destruct c as [p|]; [|reflexivity]. cbn [iv_inplace]. destruct (iv_get s x) as [a|] eqn:E; [|apply fresh_other; assumption].
  unfold iv_uint64, iv_content. cbn. unfold iv_get at 1. cbn [iv_vars]. fold (iv_get s y).
  destruct (iv_get s y) as [b|] eqn:Eb; [|reflexivity]. cbn. rewrite upd_nth_error_other; [reflexivity|].
  intros ->. exact (Ha x y b Hxy E Eb).
Qed.
Lemma apart_step s o y : wf s -> apart s -> no_copy o -> op_target o <> y -> iv_uint64 (iv_step s o) y = iv_uint64 s y.
Proof.
  intros Hw Ha Hc Hy. destruct o as [x n|x z|x t|x|x v|x d|x r|x]; try (apply quiet_step; [assumption|exact I|assumption]); cbn in Hy |- *.
  - destruct (id_set _ t) as [c [|]]; [apply inplace_other; assumption|reflexivity].
  - apply inplace_other with (c := Some _); assumption.
Qed.
Lemma run_apart l : forall s, wf s -> apart s -> Forall no_copy l -> apart (iv_run s l).
Proof.
  intros s Hw Ha Hc. apply (run_inv (fun s => wf s /\ apart s) no_copy); [|split; assumption|exact Hc].
  intros t o [H1 H2] H3. split; [apply step_wf|apply step_apart]; assumption.
Qed.
Lemma init_apart k : apart (iv_init k).
Proof.
  intros x y a _ H. unfold iv_get, iv_init in H. cbn in H. destruct (nth_in_or_default x (repeat None k) (None : option nat)) as [G|G]; [|congruence].
  apply repeat_spec in G. congruence.
Qed.

(** ** IDArray *)
Lemma contains_in n i : ida_contains n i = true <-> In (id_val i) (map id_val n).
Proof.
  unfold ida_contains. rewrite existsb_exists, in_map_iff. split.
  - intros (v & H1 & H2). exists v. split; [apply Z.eqb_eq, H2|exact H1].
  - intros (v & H1 & H2). exists v. split; [exact H2|apply Z.eqb_eq, H1].
Qed.
Lemma add_list n i : ida_list (ida_add n i) = if in_dec Z.eq_dec (id_val i) (ida_list n) then ida_list n else ida_list n ++ [id_val i].
Proof.
  unfold ida_add, ida_list. destruct (ida_contains n i) eqn:E; destruct (in_dec Z.eq_dec (id_val i) (map id_val n)) as [H|H]; try reflexivity.
  - apply contains_in in E. tauto.
  - apply contains_in in H. congruence.
  - apply map_app.
Qed.
Lemma add_nodup n i : NoDup (ida_list n) -> NoDup (ida_list (ida_add n i)).
Proof.
  intros H. rewrite add_list. destruct (in_dec _ _ _) as [|Hn]; [exact H|].
  apply NoDup_Add with (a := id_val i) (l := ida_list n); [|split; assumption].
  rewrite <- (app_nil_r (ida_list n)) at 1. apply Add_app.
Qed.
Lemma add_in n i z : In z (ida_list (ida_add n i)) <-> In z (ida_list n) \/ z = id_val i.
Proof.
  rewrite add_list. destruct (in_dec _ _ _) as [H|H]; [|rewrite in_app_iff; cbn; split; intros [A|A]; auto; destruct A; auto; contradiction].
  split; [auto|]. intros [A| ->]; assumption.
Qed.
Lemma add_all_nodup o : forall n, NoDup (ida_list n) -> NoDup (ida_list (ida_add_all n o)).
Proof. induction o as [|i o IH]; intros n H; [exact H|]. cbn. apply IH, add_nodup, H. Qed.
Lemma add_all_in o : forall n z, In z (ida_list (ida_add_all n o)) <-> In z (ida_list n) \/ In z (ida_list o).
Proof.
  induction o as [|i o IH]; intros n z; [cbn; tauto|]. cbn [ida_add_all fold_left]. fold (ida_add_all (ida_add n i) o). rewrite IH, add_in. cbn.
  split; [intros [[H|H]|H]|intros [H|[H|H]]]; auto.
Qed.
Lemma dedup_mem l : forall s1 s2, (forall z, In z s1 <-> In z s2) -> dedup l s1 = dedup l s2.
Proof.
  induction l as [|x l IH]; intros s1 s2 H; [reflexivity|]. cbn.
  destruct (in_dec Z.eq_dec x s1) as [A|A], (in_dec Z.eq_dec x s2) as [C|C]; try (exfalso; apply H in A || apply H in C; contradiction).
  - apply IH, H.
  - f_equal. apply IH. intros z. cbn. rewrite H. reflexivity.
Qed.
Lemma add_all_list o : forall n, ida_list (ida_add_all n o) = ida_list n ++ dedup (ida_list o) (ida_list n).
Proof.
  induction o as [|i o IH]; intros n; [symmetry; apply app_nil_r|]. cbn [ida_add_all fold_left]. fold (ida_add_all (ida_add n i) o).
  rewrite IH, add_list. cbn [ida_list map dedup]. fold (ida_list n) (ida_list o). destruct (in_dec Z.eq_dec (id_val i) (ida_list n)) as [H|H]; [reflexivity|].
  rewrite <- app_assoc. cbn [app]. do 2 f_equal. apply dedup_mem. intros z. rewrite in_app_iff. cbn. tauto.
Qed.
Lemma new_id_array_all l : Forall uint64 l -> new_id_array l = ida_add_all [] (map id_new l).
Proof.
  intros _. unfold new_id_array, ida_add_all. generalize (@nil idc). induction l as [|x l IH]; intros a; [reflexivity|]. cbn. apply IH.
Qed.
Lemma map_val_new l : Forall uint64 l -> ida_list (map id_new l) = l.
Proof.
  intros H. unfold ida_list. rewrite map_map. induction H as [|x l Hx Hl IH]; [reflexivity|]. cbn. rewrite IH, id_new_val by apply Hx. reflexivity.
Qed.
Lemma new_id_array_list l : Forall uint64 l -> ida_list (new_id_array l) = dedup l [].
Proof. intros H. rewrite new_id_array_all, add_all_list, map_val_new by assumption. reflexivity. Qed.

(** ** Sort *)
Lemma ins_perm i l : Permutation (i :: l) (ins_by i l).
Proof.
  induction l as [|j l IH]; [reflexivity|]. cbn. destruct (_ <? _); [|reflexivity].
  rewrite perm_swap. constructor. exact IH.
Qed.
Lemma sort_perm l : Permutation l (sort_by l).
Proof. induction l as [|i l IH]; [reflexivity|]. cbn. rewrite <- ins_perm. constructor. exact IH. Qed.
Lemma ins_sorted i l : StronglySorted Z.le (map id_val l) -> StronglySorted Z.le (map id_val (ins_by i l)).
Proof.
  induction l as [|j l IH]; intros H; [cbn; repeat constructor|]. cbn. inversion H as [|? ? H1 H2]; subst.
  destruct (id_val j <? id_val i) eqn:E; [apply Z.ltb_lt in E|apply Z.ltb_ge in E]; cbn.
  - constructor; [apply IH; exact H1|]. apply Forall_forall. intros z Hz.
    assert (Hz' : In z (map id_val (i :: l))) by (eapply Permutation_in; [apply Permutation_map, Permutation_sym, ins_perm|exact Hz]).
    destruct Hz' as [<-|Hz']; [lia|]. exact (proj1 (Forall_forall _ _) H2 z Hz').
  - constructor; [exact H|]. constructor; [exact E|]. eapply Forall_impl; [|exact H2]. cbn. intros. lia.
Qed.
Lemma sort_sorted l : StronglySorted Z.le (map id_val (sort_by l)).
Proof. induction l as [|i l IH]; [constructor|]. cbn. apply ins_sorted, IH. Qed.

(** ** Postgres text *)
Lemma minus_not_comma : ascii_of_nat 45 <> ascii_of_nat 44. Proof. discriminate. Qed.
Lemma fmt_int_clean z : ~ In (ascii_of_nat 44) (fmt_int 10 z) /\ fmt_int 10 z <> [].
Proof.
  assert (G : forall n, 0 <= n -> ~ In (ascii_of_nat 44) (fmt_uint 10 n)).
  { intros n H Hin. destruct (fmt_uint_dec n H) as [[_ D] _]. apply (proj1 (Forall_forall _ _) D) in Hin. destruct Hin as [Hin _]. vm_compute in Hin. lia. }
  unfold fmt_int. destruct (z <? 0) eqn:E; [apply Z.ltb_lt in E|apply Z.ltb_ge in E].
  - split; [|discriminate]. intros [H|H]; [discriminate|]. exact (G (- z) ltac:(lia) H).
  - split; [apply G; lia|apply fmt_uint_nonempty; lia].
Qed.
Lemma parse_all_fmt l : Forall int64 l -> parse_all (map (fmt_int 10) l) = Some l.
Proof.
  intros H. induction H as [|z l Hz Hl IH]; [reflexivity|]. cbn. rewrite IH, parse_int_fmt by (try lia; exact Hz). reflexivity.
Qed.
Lemma is_ch_true n c : (n < 256)%nat -> is_ch n c = true <-> c = ascii_of_nat n.
Proof. intros L. unfold is_ch. rewrite Nat.eqb_eq. split; [intros <-; symmetry; apply ascii_nat_embedding|intros ->; apply nat_ascii_embedding; lia]. Qed.
Lemma is_ch_false n c : (n < 256)%nat -> is_ch n c = false <-> c <> ascii_of_nat n.
Proof. intros L. rewrite <- (is_ch_true n c L). destruct (is_ch n c); split; congruence. Qed.
(** Reading one element. *)
Lemma word_run t : forall cur out r, ~ In (ascii_of_nat 44) t -> ~ In (ascii_of_nat 125) t -> pq_elems PWord cur out (t ++ r) = pq_elems PWord (rev t ++ cur) out r.
Proof.
  induction t as [|c t IH]; intros cur out r N1 N2; [reflexivity|]. cbn [app pq_elems].
  assert (is_ch 44 c = false) as -> by (apply is_ch_false; [lia|]; intros ->; apply N1; left; reflexivity).
  assert (is_ch 125 c = false) as -> by (apply is_ch_false; [lia|]; intros ->; apply N2; left; reflexivity).
  rewrite IH; [|intros X; apply N1; right; exact X|intros X; apply N2; right; exact X]. cbn [rev]. rewrite <- app_assoc. reflexivity.
Qed.
Lemma quote_run t w : quoted_text t w -> forall cur out r, pq_elems PQuote cur out (t ++ r) = pq_elems PQuote (rev w ++ cur) out r.
Proof.
  induction 1 as [|c t w N1 N2 Q IH|c t w Q IH]; intros cur out r; [reflexivity| |].
  - cbn [app pq_elems]. assert (is_ch 92 c = false) as -> by (apply is_ch_false; [lia|exact N2]). assert (is_ch 34 c = false) as -> by (apply is_ch_false; [lia|exact N1]).
    rewrite IH. cbn [rev]. rewrite <- app_assoc. reflexivity.
  - cbn [app pq_elems]. change (is_ch 92 (ascii_of_nat 92)) with true. cbv iota. rewrite IH. cbn [rev]. rewrite <- app_assoc. reflexivity.
Qed.
(** An element and the delimiter or brace behind it. *)
Lemma elem_run t w : array_elem t w -> forall out d r, d = ascii_of_nat 44 \/ d = ascii_of_nat 125 ->
  pq_elems PStart [] out (t ++ d :: r) = pq_elems (if is_ch 44 d then PStart else PDone) [] (w :: out) r.
Proof.
  intros H out d r Hd. destruct H as [t (Ne & Nn & N1 & N2 & N3 & N4)| |t w Q].
  - destruct t as [|c t]; [congruence|]. cbn [app pq_elems].
    assert (is_ch 123 c = false) as -> by (apply is_ch_false; [lia|]; intros ->; exact (N3 t eq_refl)).
    assert (is_ch 44 c = false) as -> by (apply is_ch_false; [lia|]; intros ->; apply N1; left; reflexivity).
    assert (is_ch 125 c = false) as -> by (apply is_ch_false; [lia|]; intros ->; apply N2; left; reflexivity).
    assert (is_ch 34 c = false) as -> by (apply is_ch_false; [lia|]; intros ->; exact (N4 t eq_refl)). cbn [orb].
    rewrite word_run; [|intros X; apply N1; right; exact X|intros X; apply N2; right; exact X].
    assert (W : pq_word (rev t ++ [c]) = c :: t). { unfold pq_word. rewrite rev_app_distr, rev_involutive. cbn [rev app]. apply beqb_neq in Nn. cbv zeta. rewrite Nn. reflexivity. }
    destruct Hd as [-> | ->]; cbn [pq_elems]; [change (is_ch 44 (ascii_of_nat 44)) with true|change (is_ch 44 (ascii_of_nat 125)) with false; change (is_ch 125 (ascii_of_nat 125)) with true]; cbv iota; rewrite W; reflexivity.
  - destruct Hd as [-> | ->]; reflexivity.
  - change ((dquote :: t ++ [dquote]) ++ d :: r) with (dquote :: (t ++ [dquote]) ++ d :: r). rewrite <- app_assoc. cbn [app pq_elems].
    change (is_ch 123 dquote || is_ch 44 dquote || is_ch 125 dquote) with false. change (is_ch 34 dquote) with true. cbv iota. rewrite (quote_run t w Q). rewrite app_nil_r. cbn [pq_elems].
    change (is_ch 92 dquote) with false. change (is_ch 34 dquote) with true. cbv iota. rewrite rev_involutive.
    destruct Hd as [-> | ->]; reflexivity.
Qed.
Lemma elems_run ts ws : Forall2 array_elem ts ws -> ts <> [] -> forall out, pq_elems PStart [] out (join (B ",") ts ++ B "}") = Some (rev out ++ ws).
Proof.
  induction 1 as [|t w ts ws H Hs IH]; intros Ne out; [congruence|]. destruct ts as [|t' ts].
  - inversion Hs; subst. cbn [join]. change (t ++ B "}") with (t ++ ascii_of_nat 125 :: []). rewrite (elem_run t w H) by (right; reflexivity). reflexivity.
  - rewrite join_cons by discriminate. change (B "," ++ ?x) with (ascii_of_nat 44 :: x). rewrite <- app_assoc. cbn [app]. rewrite (elem_run t w H) by (left; reflexivity).
    change (is_ch 44 (ascii_of_nat 44)) with true. cbv iota. rewrite IH by discriminate. cbn [rev]. rewrite <- app_assoc. reflexivity.
Qed.
Lemma open_braces k : forall j r, pq_open j (repeat (ascii_of_nat 123) k ++ r) = pq_open (k + j) r.
Proof. induction k as [|k IH]; intros j r; [reflexivity|]. cbn [repeat app pq_open]. change (is_ch 123 (ascii_of_nat 123)) with true. cbv iota. rewrite IH. f_equal. lia. Qed.
Lemma open_not ts ws : Forall2 array_elem ts ws -> ts <> [] -> exists c r, join (B ",") ts ++ B "}" = c :: r /\ c <> ascii_of_nat 123 /\ c <> ascii_of_nat 125.
Proof.
  intros H Ne. destruct H as [|t w ts ws H Hs]; [congruence|]. assert (G : exists c r, t = c :: r /\ c <> ascii_of_nat 123 /\ c <> ascii_of_nat 125).
  { destruct H as [t (N0 & _ & _ & N2 & N3 & _)| |t w Q].
    - destruct t as [|c t]; [congruence|]. exists c, t. split; [reflexivity|]. split; [intros ->; exact (N3 t eq_refl)|intros ->; apply N2; left; reflexivity].
    - exists (ascii_of_nat 78), (B "ULL"). split; [reflexivity|]. split; discriminate.
    - exists dquote, (t ++ [dquote]). split; [reflexivity|]. split; discriminate. }
  destruct G as (c & r & -> & N1 & N2). destruct ts as [|t' ts]; [cbn [join app]|rewrite join_cons by discriminate; cbn [app]]; eexists c, _; (split; [reflexivity|split; assumption]).
Qed.
Lemma array_parse s ws : array_text s ws -> pq_open 0 s = Some ws.
Proof.
  intros [k Hk|ts ws' Ne H].
  - rewrite open_braces. rewrite Nat.add_0_r. destruct k as [|k]; [lia|]. cbn [repeat pq_open]. change (is_ch 123 (ascii_of_nat 125)) with false. change (is_ch 125 (ascii_of_nat 125)) with true. cbv iota.
    change (ascii_of_nat 125 :: repeat (ascii_of_nat 125) k) with (repeat (ascii_of_nat 125) (S k)). rewrite beqb_refl. reflexivity.
  - change (B "{" ++ ?x) with (ascii_of_nat 123 :: x). cbn [pq_open]. change (is_ch 123 (ascii_of_nat 123)) with true. cbv iota.
    destruct (open_not ts ws' H Ne) as (c & r & E & N1 & N2). pose proof (elems_run ts ws' H Ne []) as R. rewrite E in R |- *. cbn [pq_open].
    assert (is_ch 123 c = false) as -> by (apply is_ch_false; [lia|exact N1]). assert (is_ch 125 c = false) as -> by (apply is_ch_false; [lia|exact N2]). exact R.
Qed.
(** Conversely. *)
Definition tail_text (s : bytes) (ws : list bytes) : Prop := exists ts, ts <> [] /\ Forall2 array_elem ts ws /\ s = join (B ",") ts ++ B "}".
Lemma tail_cons t w s ws : array_elem t w -> tail_text s ws -> tail_text (t ++ ascii_of_nat 44 :: s) (w :: ws).
Proof.
  intros H (ts & Ne & Hs & ->). exists (t :: ts). split; [discriminate|]. split; [constructor; assumption|]. rewrite join_cons by exact Ne. rewrite <- app_assoc. reflexivity.
Qed.
Lemma tail_one t w : array_elem t w -> tail_text (t ++ B "}") [w].
Proof. intros H. exists [t]. split; [discriminate|]. split; [repeat constructor; exact H|reflexivity]. Qed.
Lemma word_elem cur : cur <> [] -> ~ In (ascii_of_nat 44) cur -> ~ In (ascii_of_nat 125) cur ->
  (forall r, rev cur <> ascii_of_nat 123 :: r) -> (forall r, rev cur <> dquote :: r) -> array_elem (rev cur) (pq_word cur).
Proof.
  intros Ne N1 N2 N3 N4. unfold pq_word. cbv zeta. destruct (beqb (rev cur) (B "NULL")) eqn:E; [apply beqb_eq in E; rewrite E; constructor|apply beqb_neq in E]. constructor.
  split; [intros X; apply Ne; rewrite <- (rev_involutive cur), X; reflexivity|]. split; [exact E|]. split; [rewrite <- in_rev; exact N1|]. split; [rewrite <- in_rev; exact N2|]. split; assumption.
Qed.
Lemma elems_inv s : forall st cur out l, pq_elems st cur out s = Some l -> exists ws, l = rev out ++ ws /\
  match st with
  | PStart => tail_text s ws
  | PWord => cur <> [] -> ~ In (ascii_of_nat 44) cur -> ~ In (ascii_of_nat 125) cur -> (forall r, rev cur <> ascii_of_nat 123 :: r) -> (forall r, rev cur <> dquote :: r) -> tail_text (rev cur ++ s) ws
  | PQuote => forall t, quoted_text t (rev cur) -> tail_text (dquote :: t ++ s) ws
  | PEsc => forall t, quoted_text t (rev cur) -> tail_text (dquote :: t ++ ascii_of_nat 92 :: s) ws
  | PAfter => forall t w, array_elem t w -> tail_text (t ++ s) (w :: ws)
  | PDone => s = [] /\ ws = []
  end.
Proof.
  assert (QApp : forall t w, quoted_text t w -> forall t' w', quoted_text t' w' -> quoted_text (t ++ t') (w ++ w')).
  { induction 1; intros t' w' Q; cbn [app]; [exact Q|apply qt_char; auto|apply qt_esc; auto]. }
  induction s as [|c s IH]; intros st cur out l H.
  - destruct st; cbn in H; try discriminate H. injection H as <-. exists []. split; [rewrite app_nil_r; reflexivity|split; reflexivity].
  - destruct st; cbn [pq_elems] in H.
    + destruct (is_ch 123 c) eqn:C1; [discriminate H|]. destruct (is_ch 44 c) eqn:C2; [discriminate H|]. destruct (is_ch 125 c) eqn:C3; [discriminate H|]. cbn [orb] in H.
      apply is_ch_false in C1, C2, C3; try lia. destruct (is_ch 34 c) eqn:C4.
      * apply is_ch_true in C4; [|lia]. subst c. destruct (IH _ _ _ _ H) as (ws & E & K). exists ws. split; [exact E|]. exact (K [] qt_nil).
      * apply is_ch_false in C4; [|lia]. destruct (IH _ _ _ _ H) as (ws & E & K). exists ws. split; [exact E|]. change (c :: s) with (rev [c] ++ s). apply K; [discriminate|intros [X|[]]; exact (C2 X)|intros [X|[]]; exact (C3 X)|intros r [= X _]; exact (C1 X)|intros r [= X _]; exact (C4 X)].
    + destruct (is_ch 44 c) eqn:C2.
      * apply is_ch_true in C2; [|lia]. subst c. destruct (IH _ _ _ _ H) as (ws & E & K). exists (pq_word cur :: ws). split; [rewrite E; cbn [rev]; rewrite <- app_assoc; reflexivity|]. intros. apply tail_cons; [apply word_elem; assumption|exact K].
      * apply is_ch_false in C2; [|lia]. destruct (is_ch 125 c) eqn:C3.
        -- apply is_ch_true in C3; [|lia]. subst c. destruct (IH _ _ _ _ H) as (ws & E & -> & ->). exists [pq_word cur]. split; [rewrite E; cbn [rev]; rewrite app_nil_r; reflexivity|]. intros. apply tail_one. apply word_elem; assumption.
        -- apply is_ch_false in C3; [|lia]. destruct (IH _ _ _ _ H) as (ws & E & K). exists ws. split; [exact E|]. intros Ne N1 N2 N3 N4.
           replace (rev cur ++ c :: s) with (rev (c :: cur) ++ s) by (cbn [rev]; rewrite <- app_assoc; reflexivity). apply K; [discriminate|intros [X|X]; [congruence|exact (N1 X)]|intros [X|X]; [congruence|exact (N2 X)]| |].
           ++ intros r X. cbn [rev] in X. destruct (rev cur) as [|a q] eqn:Er; [apply Ne; rewrite <- (rev_involutive cur), Er; reflexivity|]. injection X as -> _. exact (N3 q eq_refl).
           ++ intros r X. cbn [rev] in X. destruct (rev cur) as [|a q] eqn:Er; [apply Ne; rewrite <- (rev_involutive cur), Er; reflexivity|]. injection X as -> _. exact (N4 q eq_refl).
    + destruct (is_ch 92 c) eqn:C1.
      * apply is_ch_true in C1; [|lia]. subst c. destruct (IH _ _ _ _ H) as (ws & E & K). exists ws. split; [exact E|exact K].
      * apply is_ch_false in C1; [|lia]. destruct (is_ch 34 c) eqn:C4.
        -- apply is_ch_true in C4; [|lia]. subst c. destruct (IH _ _ _ _ H) as (ws & E & K). exists (rev cur :: ws). split; [rewrite E; cbn [rev]; rewrite <- app_assoc; reflexivity|]. intros t Q.
           specialize (K (dquote :: t ++ [dquote]) (rev cur) (ae_quoted t (rev cur) Q)). cbn [app] in K. rewrite <- app_assoc in K. exact K.
        -- apply is_ch_false in C4; [|lia]. destruct (IH _ _ _ _ H) as (ws & E & K). exists ws. split; [exact E|]. intros t Q.
           specialize (K (t ++ [c])). rewrite <- app_assoc in K. apply K. cbn [rev]. apply QApp; [exact Q|]. apply qt_char; [exact C4|exact C1|constructor].
    + destruct (IH _ _ _ _ H) as (ws & E & K). exists ws. split; [exact E|]. intros t Q. specialize (K (t ++ [ascii_of_nat 92; c])). rewrite <- app_assoc in K. apply K. cbn [rev]. apply QApp; [exact Q|]. apply qt_esc. constructor.
    + destruct (is_ch 44 c) eqn:C2.
      * apply is_ch_true in C2; [|lia]. subst c. destruct (IH _ _ _ _ H) as (ws & E & K). exists ws. split; [exact E|]. intros t w Ht. apply tail_cons; assumption.
      * destruct (is_ch 125 c) eqn:C3; [|discriminate H]. apply is_ch_true in C3; [|lia]. subst c. destruct (IH _ _ _ _ H) as (ws & E & -> & ->). exists []. split; [exact E|]. intros t w Ht. apply tail_one, Ht.
    + discriminate H.
Qed.
Lemma array_inv s ws : pq_open 0 s = Some ws -> array_text s ws.
Proof.
  assert (G : forall s k ws, pq_open k s = Some ws -> array_text (repeat (ascii_of_nat 123) k ++ s) ws).
  { clear. induction s as [|c s IH]; intros k ws H; [discriminate H|]. cbn [pq_open] in H. destruct (is_ch 123 c) eqn:C1.
    - apply is_ch_true in C1; [|lia]. subst c. specialize (IH (S k) ws H). assert (R : repeat (ascii_of_nat 123) (S k) ++ s = repeat (ascii_of_nat 123) k ++ ascii_of_nat 123 :: s).
      { clear. induction k as [|k IH]; [reflexivity|]. cbn [repeat app] in IH |- *. f_equal. exact IH. } rewrite <- R. exact IH.
    - destruct (is_ch 125 c) eqn:C3.
      + destruct (Nat.ltb 0 k && beqb (c :: s) (repeat (ascii_of_nat 125) k)) eqn:E; [|discriminate H]. injection H as <-. apply andb_true_iff in E as [E1 E2]. apply Nat.ltb_lt in E1. apply beqb_eq in E2. rewrite E2. constructor. exact E1.
      + destruct (Nat.eqb k 1) eqn:E; [|discriminate H]. apply Nat.eqb_eq in E. subst k. destruct (elems_inv _ _ _ _ _ H) as (ws' & -> & ts & Ne & Hs & ->). cbn [rev app]. change (repeat (ascii_of_nat 123) 1) with (B "{"). constructor; assumption. }
  exact (G s 0%nat ws).
Qed.
Lemma array_text_iff s ws : pq_open 0 s = Some ws <-> array_text s ws.
Proof. split; [apply array_inv|apply array_parse]. Qed.
Lemma parse_int_text s z : parse_int 64 s = Some z <-> int_text s z.
Proof.
  unfold int_text, int64. destruct s as [|c r].
  - cbn [parse_int]. split; [discriminate|]. intros (_ & d & [Ne _] & [[E _]|[[E _]|[E _]]]); [congruence|discriminate E|discriminate E].
  - unfold parse_int. assert (P63 : 2 ^ (64 - 1) = 2 ^ 63) by reflexivity. rewrite P63.
    assert (Dig : forall d, is_dec (c :: d) -> c <> ascii_of_nat 45 /\ c <> ascii_of_nat 43).
    { intros d [_ D]. inversion D as [|? ? [X Y] _]; subst. split; intros ->; vm_compute in X; lia. }
    destruct (ascii_dec c (ascii_of_nat 45)) as [->|N1]; [|destruct (ascii_dec c (ascii_of_nat 43)) as [->|N2]].
    + destruct (ascii_dec (ascii_of_nat 45) (ascii_of_nat 43)) as [X|_]; [discriminate X|]. cbn [orb negb andb]. destruct (parse_uint 64 r) as [u|] eqn:E.
      * apply parse_uint_iff in E as (D & -> & L); [|lia]. pose proof (dec_val_nonneg r D). destruct (2 ^ 63 <? dec_val r) eqn:C; [apply Z.ltb_lt in C|apply Z.ltb_ge in C].
        -- split; [discriminate|]. intros (R & d & Dd & [[E _]|[[E _]|[E ->]]]); [subst d; destruct (Dig _ Dd); congruence|discriminate E|injection E as ->; lia].
        -- split; [intros [= <-]; split; [lia|]; exists r; split; [exact D|right; right; split; reflexivity]|]. intros (R & d & Dd & [[E _]|[[E _]|[E ->]]]); [subst d; destruct (Dig _ Dd); congruence|discriminate E|injection E as ->; reflexivity].
      * apply parse_uint_none in E; [|lia]. split; [discriminate|]. intros (R & d & Dd & [[E' _]|[[E' _]|[E' ->]]]); [subst d; destruct (Dig _ Dd); congruence|discriminate E'|injection E' as ->]. exfalso. apply E. split; [exact Dd|]. lia.
    + cbn [orb negb andb]. destruct (parse_uint 64 r) as [u|] eqn:E.
      * apply parse_uint_iff in E as (D & -> & L); [|lia]. pose proof (dec_val_nonneg r D). destruct (2 ^ 63 <=? dec_val r) eqn:C; [apply Z.leb_le in C|apply Z.leb_gt in C].
        -- split; [discriminate|]. intros (R & d & Dd & [[E _]|[[E ->]|[E _]]]); [subst d; destruct (Dig _ Dd); congruence|injection E as ->; lia|discriminate E].
        -- split; [intros [= <-]; split; [lia|]; exists r; split; [exact D|right; left; split; reflexivity]|]. intros (R & d & Dd & [[E _]|[[E ->]|[E _]]]); [subst d; destruct (Dig _ Dd); congruence|injection E as ->; reflexivity|discriminate E].
      * apply parse_uint_none in E; [|lia]. split; [discriminate|]. intros (R & d & Dd & [[E' _]|[[E' ->]|[E' _]]]); [subst d; destruct (Dig _ Dd); congruence|injection E' as ->|discriminate E']. exfalso. apply E. split; [exact Dd|]. lia.
    + cbn [orb negb andb]. destruct (parse_uint 64 (c :: r)) as [u|] eqn:E.
      * apply parse_uint_iff in E as (D & -> & L); [|lia]. pose proof (dec_val_nonneg _ D). destruct (2 ^ 63 <=? dec_val (c :: r)) eqn:C; [apply Z.leb_le in C|apply Z.leb_gt in C].
        -- split; [discriminate|]. intros (R & d & Dd & [[E ->]|[[E _]|[E _]]]); [subst d; lia|injection E as E _; destruct (N2 E)|injection E as E _; destruct (N1 E)].
        -- split; [intros [= <-]; split; [lia|]; exists (c :: r); split; [exact D|left; split; reflexivity]|]. intros (R & d & Dd & [[E ->]|[[E _]|[E _]]]); [subst d; reflexivity|injection E as E _; destruct (N2 E)|injection E as E _; destruct (N1 E)].
      * apply parse_uint_none in E; [|lia]. split; [discriminate|]. intros (R & d & Dd & [[E' ->]|[[E' _]|[E' _]]]); [subst d; exfalso; apply E; split; [exact Dd|lia]|injection E' as E' _; destruct (N2 E')|injection E' as E' _; destruct (N1 E')].
Qed.
Lemma parse_all_iff ws : forall zs, parse_all ws = Some zs <-> Forall2 int_text ws zs.
Proof.
  induction ws as [|w ws IH]; intros zs; cbn [parse_all]; [split; [intros [= <-]; constructor|intros H; inversion H; reflexivity]|].
  destruct (parse_int 64 w) as [z|] eqn:E.
  - apply parse_int_text in E. destruct (parse_all ws) as [k|].
    + split; [intros [= <-]; constructor; [exact E|apply IH; reflexivity]|]. intros H. inversion H as [|? z' ? k' H1 H2]; subst. apply IH in H2. injection H2 as ->. apply parse_int_text in E, H1. congruence.
    + split; [discriminate|]. intros H. inversion H as [|? ? ? k' H1 H2]; subst. apply IH in H2. discriminate H2.
  - split; [discriminate|]. intros H. inversion H as [|? ? ? ? H1 H2]; subst. apply parse_int_text in H1. congruence.
Qed.
Lemma int_bare z : bare_text (fmt_int 10 z).
Proof.
  assert (G : forall n, 0 <= n -> Forall is_digit (fmt_uint 10 n)) by (intros n H; exact (proj2 (proj1 (fmt_uint_dec n H)))).
  assert (C : forall c, In c (fmt_int 10 z) -> is_digit c \/ c = ascii_of_nat 45).
  { intros c. unfold fmt_int. destruct (z <? 0) eqn:E; [apply Z.ltb_lt in E|apply Z.ltb_ge in E]; [intros [<-|H]; [right; reflexivity|left; exact (proj1 (Forall_forall _ _) (G (- z) ltac:(lia)) c H)]|intros H; left; exact (proj1 (Forall_forall _ _) (G z ltac:(lia)) c H)]. }
  assert (N : forall n, (n < 256)%nat -> ~ (48 <= n <= 57)%nat -> n <> 45%nat -> ~ In (ascii_of_nat n) (fmt_int 10 z)).
  { intros n L N1 N2 H. destruct (C _ H) as [[X Y]|X]; [rewrite nat_ascii_embedding in X, Y by lia; lia|]. apply (f_equal nat_of_ascii) in X. rewrite !nat_ascii_embedding in X by lia. lia. }
  split; [exact (proj2 (fmt_int_clean z))|]. split; [intros E; apply (N 78%nat); try lia; rewrite E; left; reflexivity|]. split; [apply N; lia|]. split; [apply N; lia|].
  split; intros r E; [apply (N 123%nat)|apply (N 34%nat)]; try lia; rewrite E; left; reflexivity.
Qed.
Lemma pq_roundtrip l : Forall int64 l -> pq_parse (pq_value l) = Some l.
Proof.
  intros H. unfold pq_parse, pq_value. assert (A : array_text (B "{" ++ join (B ",") (map (fmt_int 10) l) ++ B "}") (map (fmt_int 10) l)).
  { destruct l as [|z l]; [exact (at_empty 1 ltac:(lia))|]. constructor; [discriminate|]. generalize (z :: l). clear. induction l as [|z l IH]; constructor; [apply ae_bare, int_bare|exact IH]. }
  apply array_parse in A. rewrite A. apply parse_all_fmt. exact H.
Qed.
Lemma ida_roundtrip n old : Forall id_ok n -> let '(m, ok) := ida_scan old (ida_value n) in ok = true /\ ida_list m = ida_list n /\ (n = [] -> m = []).
Proof.
  intros H. unfold ida_value. destruct n as [|i n]; [split; [reflexivity|split; reflexivity]|].
  cbn [ida_scan]. rewrite pq_roundtrip; [|unfold ida_int64s; apply Forall_forall; intros z Hz; apply in_map_iff in Hz as (v & <- & _); exact (wrap_s_range 64 (id_val v) ltac:(lia))].
  split; [reflexivity|split; [|discriminate]]. unfold ida_list, ida_int64s. rewrite !map_map. apply map_ext_in. intros v Hv.
  apply (proj1 (Forall_forall _ _) H) in Hv. unfold id_ok, uint64 in Hv. unfold u64, i64. rewrite wrap_u_s, wrap_u_id by lia. apply id_new_val. lia.
Qed.

(** ** Slices *)
Lemma sl_elems_length a s : sl_wf a s -> length (sl_elems a s) = sl_len s.
Proof. destruct s as [[i n]|]; [|reflexivity]. intros [_ H]. cbn. rewrite firstn_length. lia. Qed.
Lemma firstn_upd_le {A} (l : list A) i k y : (k <= i)%nat -> firstn k (upd l i y) = firstn k l.
Proof. revert i k. induction l as [|h l IH]; intros [|i] [|k] H; cbn; try reflexivity; try lia. f_equal. apply IH. lia. Qed.
Lemma firstn_upd_S {A} (l : list A) k y : (k < length l)%nat -> firstn (S k) (upd l k y) = firstn k l ++ [y].
Proof. revert k. induction l as [|h l IH]; intros [|k] H; cbn in *; try lia; [reflexivity|]. f_equal. apply (IH k). lia. Qed.
Lemma sl_arr_upd_same a i l : (i < length a)%nat -> sl_arr (upd a i l) i = l.
Proof. intros H. unfold sl_arr. apply upd_nth_same. exact H. Qed.
Lemma sl_arr_upd_other a i j l : i <> j -> sl_arr (upd a i l) j = sl_arr a j.
Proof. intros H. unfold sl_arr. apply upd_nth_other. exact H. Qed.
Lemma sl_append_spec g a s x : sl_wf a s -> (forall n, (n < g n)%nat) -> let '(a', s') := sl_append g a s x in
  sl_wf a' s' /\ sl_elems a' s' = sl_elems a s ++ [x] /\
  (forall t, sl_wf a t -> (sl_len t <= sl_len s)%nat \/ (match s, t with Some (i, _), Some (j, _) => i <> j | _, _ => True end) ->
     sl_wf a' t /\ sl_elems a' t = sl_elems a t).
Proof.
  intros Hw Hg. unfold sl_append.
  assert (Fresh : let '(a', s') := (a ++ [sl_elems a s ++ x :: repeat 0 (g (sl_len s) - S (sl_len s))], Some (length a, S (sl_len s))) in
    sl_wf a' s' /\ sl_elems a' s' = sl_elems a s ++ [x] /\ (forall t, sl_wf a t -> sl_wf a' t /\ sl_elems a' t = sl_elems a t)).
  { pose proof (sl_elems_length a s Hw) as L. split; [|split].
    - cbn. unfold sl_arr. rewrite app_nth2, Nat.sub_diag by lia. cbn. rewrite !app_length. cbn. lia.
    - cbn [sl_elems]. unfold sl_arr. rewrite app_nth2, Nat.sub_diag by lia. cbn [nth].
      change (x :: repeat 0 _) with ([x] ++ repeat 0 (g (sl_len s) - S (sl_len s))). rewrite app_assoc, firstn_app.
      rewrite app_length, L. cbn [length]. replace (S (sl_len s) - (sl_len s + 1))%nat with O by lia. rewrite firstn_O, app_nil_r.
      apply firstn_all2. rewrite app_length, L. cbn. lia.
    - intros [[j m]|]; [|split; [exact I|reflexivity]]. intros [H1 H2]. assert (E : sl_arr (a ++ [sl_elems a s ++ x :: repeat 0 (g (sl_len s) - S (sl_len s))]) j = sl_arr a j).
      { unfold sl_arr. apply app_nth1. exact H1. }
      cbn. rewrite E, app_length. split; [lia|reflexivity]. }
  destruct s as [[i n]|]; [|destruct Fresh as (F1 & F2 & F3); split; [exact F1|split; [exact F2|intros t Ht _; apply F3, Ht]]].
  cbn [sl_len]. destruct (n <? length (sl_arr a i))%nat eqn:E; [apply Nat.ltb_lt in E|destruct Fresh as (F1 & F2 & F3); split; [exact F1|split; [exact F2|intros t Ht _; apply F3, Ht]]].
  destruct Hw as [Hi Hn]. split; [|split].
  - cbn. rewrite upd_length, sl_arr_upd_same, upd_length by assumption. lia.
  - cbn [sl_elems]. rewrite sl_arr_upd_same by assumption. apply firstn_upd_S. exact E.
  - intros [[j m]|]; [|split; [exact I|reflexivity]]. intros [H1 H2] Hd. cbn [sl_wf sl_elems]. rewrite upd_length.
    destruct (Nat.eq_dec i j) as [->|Hij].
    + rewrite sl_arr_upd_same, upd_length by assumption. destruct Hd as [Hd|Hd]; [|congruence]. cbn in Hd. split; [lia|]. apply firstn_upd_le. exact Hd.
    + rewrite sl_arr_upd_other by assumption. split; [split; assumption|reflexivity].
Qed.
Lemma sl_mem a s x : existsb (Z.eqb x) (sl_elems a s) = true <-> In x (sl_elems a s).
Proof.
  rewrite existsb_exists. split; [intros (y & H1 & H2); apply Z.eqb_eq in H2; subst; exact H1|]. intros H. exists x. split; [exact H|apply Z.eqb_refl].
Qed.
Lemma sl_add_spec g a s x : sl_wf a s -> (forall n, (n < g n)%nat) -> let '(a', s') := sl_add g a s x in
  sl_wf a' s' /\ sl_elems a' s' = (if in_dec Z.eq_dec x (sl_elems a s) then sl_elems a s else sl_elems a s ++ [x]) /\
  (forall t, sl_wf a t -> (sl_len t <= sl_len s)%nat \/ (match s, t with Some (i, _), Some (j, _) => i <> j | _, _ => True end) ->
     sl_wf a' t /\ sl_elems a' t = sl_elems a t).
Proof.
  intros Hw Hg. unfold sl_add. destruct (existsb (Z.eqb x) (sl_elems a s)) eqn:E; destruct (in_dec Z.eq_dec x (sl_elems a s)) as [H|H].
  - split; [exact Hw|split; [reflexivity|intros t Ht _; split; [exact Ht|reflexivity]]].
  - apply sl_mem in E. contradiction.
  - apply sl_mem in H. congruence.
  - exact (sl_append_spec g a s x Hw Hg).
Qed.

Lemma sl_add_disjoint g a s x o : sl_wf a s -> sl_wf a o -> sl_disjoint s o -> sl_disjoint (snd (sl_add g a s x)) o.
Proof.
  intros Hs Ho Hd. unfold sl_add, sl_append. destruct (existsb _ _); [exact Hd|]. destruct s as [[i n]|], o as [[j m]|]; cbn in *;
    repeat match goal with |- context [if ?b then _ else _] => destruct b end; cbn; try exact I; try exact Hd; lia.
Qed.
Lemma sl_len_add g a s x : (sl_len s <= sl_len (snd (sl_add g a s x)))%nat.
Proof.
  unfold sl_add, sl_append. destruct (existsb _ _); [apply Nat.le_refl|]. destruct s as [[i n]|]; cbn;
    repeat match goal with |- context [if ?b then _ else _] => destruct b end; cbn; lia.
Qed.
Lemma skipn_nth {A} (l : list A) k d : (k < length l)%nat -> skipn k l = nth k l d :: skipn (S k) l.
Proof. revert k. induction l as [|h l IH]; intros [|k] H; cbn in *; try lia; [reflexivity|]. apply IH. lia. Qed.
Lemma sl_add_from_spec g fuel : (forall n, (n < g n)%nat) -> forall a s o k, sl_wf a s -> sl_wf a o -> sl_disjoint s o -> (fuel + k = sl_len o)%nat ->
  let '(a', s') := sl_add_from g fuel a s o k in
  sl_wf a' s' /\ sl_elems a' s' = sl_elems a s ++ dedup (skipn k (sl_elems a o)) (sl_elems a s) /\ sl_elems a' o = sl_elems a o /\
  (forall t, sl_wf a t -> (sl_len t <= sl_len s)%nat -> sl_elems a' t = sl_elems a t).
Proof.
  intros Hg. induction fuel as [|fuel IH]; intros a s o k Hs Ho Hd Hk; cbn [sl_add_from].
  - pose proof (sl_elems_length a o Ho). rewrite skipn_all2 by lia. cbn [dedup]. rewrite app_nil_r. auto.
  - pose proof (sl_elems_length a o Ho) as Lo. set (x := nth k (sl_elems a o) 0).
    pose proof (sl_add_spec g a s x Hs Hg) as A. pose proof (sl_add_disjoint g a s x o Hs Ho Hd) as D. pose proof (sl_len_add g a s x) as Ll.
    destruct (sl_add g a s x) as [a1 s1]. cbn [snd] in D, Ll. destruct A as (A1 & A2 & A3).
    destruct (A3 o Ho (or_intror Hd)) as [B1 B2].
    specialize (IH a1 s1 o (S k) A1 B1 D ltac:(lia)). destruct (sl_add_from g fuel a1 s1 o (S k)) as [a' s'].
    destruct IH as (C1 & C2 & C3 & C4). split; [exact C1|]. split; [|split; [rewrite C3; exact B2|]].
    + rewrite C2, B2, A2. rewrite (skipn_nth (sl_elems a o) k 0) by lia. fold x. cbn [dedup].
      destruct (in_dec Z.eq_dec x (sl_elems a s)) as [H|H]; [reflexivity|]. rewrite <- app_assoc. cbn [app]. do 2 f_equal.
      apply dedup_mem. intros z. rewrite in_app_iff. cbn. tauto.
    + intros t Ht Hlt. destruct (A3 t Ht (or_introl Hlt)) as [E1 E2]. rewrite C4 by (try assumption; lia). exact E2.
Qed.
Lemma sl_disjoint_sym s t : sl_disjoint s t -> sl_disjoint t s.
Proof. destruct s as [[i n]|], t as [[j m]|]; cbn; congruence || trivial. Qed.
Lemma sl_concat_spec g a s o : (forall n, (n < g n)%nat) -> sl_wf a s -> sl_wf a o -> sl_disjoint s o ->
  let '(a', r) := sl_concat g a s o in
  sl_elems a' r = (if (sl_len o <? sl_len s)%nat then sl_elems a o ++ dedup (sl_elems a s) (sl_elems a o) else sl_elems a s ++ dedup (sl_elems a o) (sl_elems a s)) /\
  sl_elems a' s = sl_elems a s /\ sl_elems a' o = sl_elems a o.
Proof.
  intros Hg Hs Ho Hd. unfold sl_concat. destruct (sl_len o <? sl_len s)%nat.
  - pose proof (sl_add_from_spec g (sl_len s) Hg a o s 0 Ho Hs (sl_disjoint_sym _ _ Hd) ltac:(lia)) as G.
    destruct (sl_add_from _ _ _ _ _ _) as [a' r]. destruct G as (_ & G1 & G2 & G3). rewrite skipn_O in G1. auto.
  - pose proof (sl_add_from_spec g (sl_len o) Hg a s o 0 Hs Ho Hd ltac:(lia)) as G.
    destruct (sl_add_from _ _ _ _ _ _) as [a' r]. destruct G as (_ & G1 & G2 & G3). rewrite skipn_O in G1. auto.
Qed.
Lemma from_strings_list l : ida_list (ida_from_strings l) =
  dedup (flat_map (fun s => match parse_id s with (v, true) => [id_val v] | _ => [] end) l) [].
Proof.
  unfold ida_from_strings.
  assert (G : forall l a, ida_list (fold_left (fun a s => match parse_id s with (v, true) => ida_add a v | (_, false) => a end) l a) =
     ida_list a ++ dedup (flat_map (fun s => match parse_id s with (v, true) => [id_val v] | _ => [] end) l) (ida_list a)).
  { clear l. induction l as [|s l IH]; intros a; [symmetry; apply app_nil_r|]. cbn [fold_left flat_map]. rewrite IH. destruct (parse_id s) as [v [|]]; [|reflexivity].
    rewrite add_list. cbn [app dedup]. destruct (in_dec Z.eq_dec (id_val v) (ida_list a)) as [H|H]; [reflexivity|].
    rewrite <- app_assoc. cbn [app]. do 2 f_equal. apply dedup_mem. intros z. rewrite in_app_iff. cbn. tauto. }
  apply (G l []).
Qed.
