(** Facts about the Go standard-library fragment of GoBase. *)
From Verif Require Import GoBase.
From Coq Require Import ZifyBool ZifyNat.
Ltac Zify.zify_post_hook ::= Z.div_mod_to_equations.
Open Scope Z_scope.

Lemma beqb_refl (a : bytes) : beqb a a = true.
Proof. induction a as [|x a IH]; simpl; [reflexivity|]. destruct (ascii_dec x x); congruence. Qed.

Lemma beqb_eq (a b : bytes) : beqb a b = true <-> a = b.
Proof.
  split; [|intros ->; apply beqb_refl].
  revert b; induction a as [|x a IH]; intros [|y b]; simpl; try congruence; try reflexivity.
  destruct (ascii_dec x y) as [->|]; [|congruence]. intros H; f_equal; auto.
Qed.

Lemma beqb_neq (a b : bytes) : beqb a b = false <-> a <> b.
Proof.
  split; intros H.
  - intros ->. rewrite beqb_refl in H; congruence.
  - destruct (beqb a b) eqn:E; [apply beqb_eq in E; congruence|reflexivity].
Qed.

Lemma beqb_spec (a b : bytes) : reflect (a = b) (beqb a b).
Proof. apply iff_reflect. symmetry. apply beqb_eq. Qed.

Lemma bytes_dec (a b : bytes) : {a = b} + {a <> b}.
Proof. exact (list_eq_dec ascii_dec a b). Qed.

Lemma is_empty_true {A} (l : list A) : is_empty l = true <-> l = [].
Proof. destruct l; simpl; split; congruence. Qed.
Lemma is_empty_false {A} (l : list A) : is_empty l = false <-> l <> [].
Proof. destruct l; simpl; split; congruence. Qed.

(** ** join *)
Lemma join_cons sep x l : l <> [] -> join sep (x :: l) = x ++ sep ++ join sep l.
Proof. destruct l; [congruence|reflexivity]. Qed.

Lemma join_app sep l1 l2 : l1 <> [] -> l2 <> [] ->
  join sep (l1 ++ l2) = join sep l1 ++ sep ++ join sep l2.
Proof.
  induction l1 as [|x l1 IH]; [congruence|]. intros _ H2.
  destruct l1 as [|y l1]; [simpl; destruct l2; [congruence|reflexivity]|].
  change ((x :: y :: l1) ++ l2) with (x :: ((y :: l1) ++ l2)).
  rewrite !join_cons by (simpl; congruence). rewrite IH by congruence.
  rewrite <- !app_assoc. reflexivity.
Qed.

(** ** has_prefix, contains *)
Lemma has_prefix_app p s : has_prefix p (p ++ s) = true.
Proof. induction p as [|a p IH]; simpl; [reflexivity|]. destruct (ascii_dec a a); congruence. Qed.

Lemma has_prefix_spec p s : has_prefix p s = true <-> exists r, s = p ++ r.
Proof.
  split; [|intros [r ->]; apply has_prefix_app].
  revert s; induction p as [|a p IH]; intros s; simpl; [intros _; eexists; reflexivity|].
  destruct s as [|b s]; [congruence|]. destruct (ascii_dec a b) as [->|]; [|congruence].
  intros H; destruct (IH s H) as [r ->]; eexists; reflexivity.
Qed.

Lemma has_suffix_spec p s : has_suffix p s = true <-> exists r, s = r ++ p.
Proof.
  unfold has_suffix. rewrite has_prefix_spec. split; intros [r H].
  - exists (rev r). rewrite <- (rev_involutive s), H, rev_app_distr, rev_involutive. reflexivity.
  - exists (rev r). rewrite H, rev_app_distr. reflexivity.
Qed.

Lemma contains_spec sub s : contains sub s = true <-> exists a b, s = a ++ sub ++ b.
Proof.
  split.
  - induction s as [|c s IH]; cbn [contains]; rewrite orb_true_iff; intros [H|H].
    + apply has_prefix_spec in H as [r H]. exists [], r. exact H.
    + discriminate.
    + apply has_prefix_spec in H as [r H]. exists [], r. exact H.
    + destruct (IH H) as (a & b & ->). exists (c :: a), b. reflexivity.
  - intros (a & b & ->). induction a as [|c a IH].
    + simpl. destruct (sub ++ b) eqn:E; cbn [contains]; rewrite <- E, has_prefix_app; reflexivity.
    + cbn [app contains]. rewrite IH, orb_true_r. reflexivity.
Qed.

(** ** trim *)
Lemma trim_left_app_in cs p s : Forall (fun c => in_set cs c = true) p ->
  trim_left cs (p ++ s) = trim_left cs s.
Proof. induction 1 as [|c p Hc _ IH]; simpl; [reflexivity|]. rewrite Hc; exact IH. Qed.

Lemma trim_left_head cs c s : in_set cs c = false -> trim_left cs (c :: s) = c :: s.
Proof. simpl; intros ->; reflexivity. Qed.

Lemma trim_left_noop_app cs s t : s <> [] ->
  trim_left cs s = s -> trim_left cs (s ++ t) = s ++ t.
Proof.
  destruct s as [|c s]; [congruence|]. simpl. intros _.
  destruct (in_set cs c) eqn:E; [|reflexivity]. intros H.
  assert (Hl : (length (trim_left cs s) <= length s)%nat).
  { clear. induction s as [|d s IH]; simpl; [lia|]. destruct (in_set cs d); simpl; lia. }
  rewrite H in Hl. simpl in Hl. lia.
Qed.

Lemma trim_left_split cs s : exists p, s = p ++ trim_left cs s /\ Forall (fun c => in_set cs c = true) p.
Proof.
  induction s as [|c s (p & E & F)]; [exists []; split; [reflexivity|constructor]|]. simpl.
  destruct (in_set cs c) eqn:Ec.
  - exists (c :: p). split; [simpl; f_equal; exact E|constructor; assumption].
  - exists []. split; [reflexivity|constructor].
Qed.

Lemma trim_left_idem cs s : trim_left cs (trim_left cs s) = trim_left cs s.
Proof. induction s as [|c s IH]; simpl; [reflexivity|]. destruct (in_set cs c) eqn:E; [exact IH|]. simpl. rewrite E; reflexivity. Qed.

(** ** number formatting *)
Arguments Z.mul : simpl never.
Arguments Z.add : simpl never.
Arguments Z.div : simpl never.
Arguments Z.modulo : simpl never.

Lemma fmt_fuel_acc fuel base n acc :
  fmt_fuel fuel base n acc = fmt_fuel fuel base n [] ++ acc.
Proof.
  revert n acc; induction fuel as [|f IH]; intros n acc; [reflexivity|]. cbn [fmt_fuel].
  destruct (n <? base); [reflexivity|].
  rewrite IH. rewrite (IH _ [_]). rewrite <- app_assoc. reflexivity.
Qed.

Lemma fmt_fuel_irrel base : 2 <= base -> forall f1 f2 n, 0 <= n ->
  n < 2 ^ Z.of_nat f1 -> n < 2 ^ Z.of_nat f2 -> (0 < f1)%nat -> (0 < f2)%nat ->
  fmt_fuel f1 base n [] = fmt_fuel f2 base n [].
Proof.
  intros Hb. induction f1 as [|f1 IH]; intros f2 n Hn H1 H2 P1 P2; [lia|].
  destruct f2 as [|f2]; [lia|]. cbn [fmt_fuel].
  destruct (n <? base) eqn:E; [reflexivity|].
  rewrite (fmt_fuel_acc f1), (fmt_fuel_acc f2). f_equal.
  rewrite Nat2Z.inj_succ, Z.pow_succ_r in H1, H2 by lia.
  assert (2 <= n) by lia.
  assert (n / base <= n / 2) by (apply Z.div_le_compat_l; lia).
  assert (Hx : forall f, n < 2 * 2 ^ Z.of_nat f -> n / base < 2 ^ Z.of_nat f /\ (0 < f)%nat).
  { intros f Hf. split; [lia|]. destruct f; [change (2 ^ Z.of_nat 0) with 1 in Hf; lia|lia]. }
  destruct (Hx _ H1), (Hx _ H2).
  apply IH; try assumption. apply Z.div_pos; lia.
Qed.

Lemma log2_fuel n : 0 <= n -> n < 2 ^ Z.of_nat (S (Z.to_nat (Z.log2 n))).
Proof.
  intros Hn. rewrite Nat2Z.inj_succ, Z2Nat.id by apply Z.log2_nonneg.
  destruct (Z.eq_dec n 0) as [->|]; [reflexivity|].
  apply Z.log2_spec. lia.
Qed.

Lemma fmt_uint_small base n : 2 <= base -> 0 <= n < base -> fmt_uint base n = [digit_char n].
Proof. intros Hb Hn. unfold fmt_uint. cbn [fmt_fuel]. destruct (n <? base) eqn:E; [reflexivity|lia]. Qed.

Lemma fmt_uint_step base n : 2 <= base -> base <= n ->
  fmt_uint base n = fmt_uint base (n / base) ++ [digit_char (n mod base)].
Proof.
  intros Hb Hn. unfold fmt_uint at 1. cbn [fmt_fuel]. destruct (n <? base) eqn:E; [lia|].
  rewrite fmt_fuel_acc. f_equal. unfold fmt_uint.
  assert (0 < Z.log2 n) by (apply Z.log2_pos; lia).
  assert (n / base <= n / 2) by (apply Z.div_le_compat_l; lia).
  pose proof (log2_fuel n ltac:(lia)) as HL.
  rewrite Nat2Z.inj_succ, Z.pow_succ_r in HL by lia.
  assert (0 <= n / base) by (apply Z.div_pos; lia).
  apply fmt_fuel_irrel; try lia.
  apply log2_fuel; assumption.
Qed.

Lemma fmt_uint_ind (P : Z -> bytes -> Prop) base : 2 <= base ->
  (forall n, 0 <= n < base -> P n [digit_char n]) ->
  (forall n, base <= n -> P (n / base) (fmt_uint base (n / base)) ->
     P n (fmt_uint base (n / base) ++ [digit_char (n mod base)])) ->
  forall n, 0 <= n -> P n (fmt_uint base n).
Proof.
  intros Hb H0 HS n Hn.
  assert (G : forall k n, 0 <= n < Z.of_nat k -> P n (fmt_uint base n)).
  { induction k as [|k IH]; intros m Hm; [lia|].
    destruct (Z_lt_le_dec m base) as [Hs|Hs].
    - rewrite fmt_uint_small by lia. apply H0; lia.
    - rewrite fmt_uint_step by lia. apply HS; [lia|]. apply IH.
      assert (m / base <= m / 2) by (apply Z.div_le_compat_l; lia).
      assert (0 <= m / base) by (apply Z.div_pos; lia). lia. }
  apply (G (Z.to_nat (n + 1))). lia.
Qed.

Lemma digit_char_inj a b : 0 <= a < 36 -> 0 <= b < 36 -> digit_char a = digit_char b -> a = b.
Proof.
  intros Ha Hb H. apply (f_equal nat_of_ascii) in H. unfold digit_char in H.
  destruct (a <? 10) eqn:Ea, (b <? 10) eqn:Eb; rewrite !nat_ascii_embedding in H by lia; lia.
Qed.

Lemma dec_digit_char d : 0 <= d < 10 -> dec_digit (digit_char d) = Some d.
Proof.
  intros Hd. unfold dec_digit, digit_char. destruct (d <? 10) eqn:E; [|lia].
  rewrite nat_ascii_embedding by lia.
  destruct ((48 <=? _) && _) eqn:E2; [f_equal; lia|lia].
Qed.

Lemma dec_digit_range c d : dec_digit c = Some d -> 0 <= d < 10 /\ c = digit_char d.
Proof.
  unfold dec_digit. destruct ((48 <=? _) && _) eqn:E; [|congruence]. intros [= <-].
  split; [lia|]. unfold digit_char. destruct (_ <? 10) eqn:E2; [|lia].
  rewrite <- (ascii_nat_embedding c) at 1. f_equal. lia.
Qed.

Lemma fmt_uint_nonempty base n : 2 <= base -> 0 <= n -> fmt_uint base n <> [].
Proof.
  intros Hb. apply fmt_uint_ind with (P := fun _ s => s <> []); [assumption|congruence|].
  intros m _ _ H. apply app_eq_nil in H as [_ H]; congruence.
Qed.

Lemma fmt_uint_inj base : 2 <= base <= 36 -> forall a b, 0 <= a -> 0 <= b ->
  fmt_uint base a = fmt_uint base b -> a = b.
Proof.
  intros Hb a b Ha Hb0. revert a Ha b Hb0.
  apply (fmt_uint_ind (fun a s => forall b, 0 <= b -> s = fmt_uint base b -> a = b)); [lia| |].
  - intros n Hn b Hb0 H. destruct (Z_lt_le_dec b base) as [Hs|Hs].
    + rewrite fmt_uint_small in H by lia. injection H as H. apply digit_char_inj in H; lia.
    + rewrite fmt_uint_step in H by lia. exfalso.
      pose proof (fmt_uint_nonempty base (b / base) ltac:(lia) ltac:(apply Z.div_pos; lia)) as Hne.
      destruct (fmt_uint base (b / base)) as [|c l]; [congruence|]. injection H as _ H.
      destruct l; discriminate.
  - intros n Hn IH b Hb0 H. destruct (Z_lt_le_dec b base) as [Hs|Hs].
    + rewrite (fmt_uint_small base b) in H by lia. exfalso.
      pose proof (fmt_uint_nonempty base (n / base) ltac:(lia) ltac:(apply Z.div_pos; lia)) as Hne.
      destruct (fmt_uint base (n / base)) as [|c l]; [congruence|]. injection H as _ H.
      destruct l; discriminate.
    + rewrite (fmt_uint_step base b) in H by lia. apply app_inj_tail in H as [H1 H2].
      apply IH in H1; [|apply Z.div_pos; lia].
      pose proof (Z.mod_pos_bound n base ltac:(lia)). pose proof (Z.mod_pos_bound b base ltac:(lia)).
      apply digit_char_inj in H2; [|lia|lia].
      rewrite (Z.div_mod n base), (Z.div_mod b base) by lia. congruence.
Qed.

(** every character of a formatted number is a digit *)
Lemma fmt_uint_chars base n : 2 <= base -> 0 <= n ->
  Forall (fun c => exists d, 0 <= d < base /\ c = digit_char d) (fmt_uint base n).
Proof.
  intros Hb. apply fmt_uint_ind with (P := fun _ s => Forall (fun c => exists d, 0 <= d < base /\ c = digit_char d) s); [assumption| |].
  - intros m Hm. constructor; [exists m; auto|constructor].
  - intros m Hm IH. apply Forall_app; split; [exact IH|]. constructor; [|constructor].
    exists (m mod base). split; [apply Z.mod_pos_bound; lia|reflexivity].
Qed.

(** ** parsing *)
(** The value of a decimal digit string, as a mathematical number. *)
Fixpoint dec_value_from (acc : Z) (s : bytes) : option Z :=
  match s with
  | [] => Some acc
  | c :: r => match dec_digit c with
              | None => None
              | Some d => dec_value_from (acc * 10 + d) r
              end
  end.

Lemma dec_value_from_ge s : forall acc v, 0 <= acc -> dec_value_from acc s = Some v -> acc <= v.
Proof.
  induction s as [|c s IH]; intros acc v Ha; cbn [dec_value_from]; [intros [= ->]; lia|].
  destruct (dec_digit c) as [d|] eqn:E; [|congruence]. apply dec_digit_range in E as [E _].
  intros H. apply IH in H; lia.
Qed.

Lemma parse_digits_spec mx s : forall acc, 0 <= acc <= mx ->
  parse_digits mx acc s =
  match dec_value_from acc s with
  | Some v => if v <=? mx then Some v else None
  | None => None
  end.
Proof.
  induction s as [|c s IH]; intros acc Ha; cbn [parse_digits dec_value_from].
  - destruct (acc <=? mx) eqn:E; [reflexivity|lia].
  - destruct (dec_digit c) as [d|] eqn:Ed; [|reflexivity].
    apply dec_digit_range in Ed as [Ed _].
    destruct (mx <? acc * 10 + d) eqn:E.
    + destruct (dec_value_from (acc * 10 + d) s) as [v|] eqn:Ev; [|reflexivity].
      apply dec_value_from_ge in Ev; [|lia]. destruct (v <=? mx) eqn:E2; [lia|reflexivity].
    + apply IH. lia.
Qed.

Lemma parse_uint_spec bits s : 0 <= bits ->
  parse_uint bits s =
  match s with
  | [] => None
  | _ => match dec_value_from 0 s with
         | Some v => if v <? 2 ^ bits then Some v else None
         | None => None
         end
  end.
Proof.
  intros Hb. unfold parse_uint. destruct s as [|c s]; [reflexivity|].
  assert (0 < 2 ^ bits) by (apply Z.pow_pos_nonneg; lia).
  rewrite parse_digits_spec by lia.
  destruct (dec_value_from 0 (c :: s)) as [v|]; [|reflexivity].
  destruct (v <=? 2 ^ bits - 1) eqn:E1, (v <? 2 ^ bits) eqn:E2; try reflexivity; lia.
Qed.

Lemma dec_value_from_app s t : forall acc,
  dec_value_from acc (s ++ t) =
  match dec_value_from acc s with Some v => dec_value_from v t | None => None end.
Proof.
  induction s as [|c s IH]; intros acc; cbn [dec_value_from app]; [reflexivity|].
  destruct (dec_digit c); [apply IH|reflexivity].
Qed.

Lemma dec_value_fmt n : 0 <= n -> dec_value_from 0 (fmt_uint 10 n) = Some n.
Proof.
  intros Hn. revert n Hn.
  apply (fmt_uint_ind (fun n s => dec_value_from 0 s = Some n)); [lia| |].
  - intros n Hn. cbn [dec_value_from]. rewrite dec_digit_char by lia. f_equal; lia.
  - intros n Hn IH. rewrite dec_value_from_app, IH. cbn [dec_value_from].
    rewrite dec_digit_char by (apply Z.mod_pos_bound; lia). f_equal. lia.
Qed.

Lemma parse_uint_fmt bits n : 0 <= bits -> 0 <= n < 2 ^ bits -> parse_uint bits (fmt_uint 10 n) = Some n.
Proof.
  intros Hb Hn. rewrite parse_uint_spec by assumption.
  pose proof (fmt_uint_nonempty 10 n ltac:(lia) ltac:(lia)) as Hne.
  destruct (fmt_uint 10 n) as [|c l] eqn:E; [congruence|]. rewrite <- E, dec_value_fmt by lia.
  destruct (n <? 2 ^ bits) eqn:E2; [reflexivity|lia].
Qed.

Lemma digit_char_not c d : 0 <= d < 10 -> c = digit_char d -> (48 <= nat_of_ascii c <= 57)%nat.
Proof.
  intros Hd ->. unfold digit_char. destruct (d <? 10) eqn:E; [|lia].
  rewrite nat_ascii_embedding by lia. lia.
Qed.

Lemma parse_int_fmt bits n : 0 < bits -> - 2 ^ (bits - 1) <= n < 2 ^ (bits - 1) ->
  parse_int bits (fmt_int 10 n) = Some n.
Proof.
  intros Hb Hn. unfold fmt_int.
  assert (Hp : 2 ^ bits = 2 * 2 ^ (bits - 1)).
  { replace bits with (Z.succ (bits - 1)) at 1 by lia. rewrite Z.pow_succ_r by lia. reflexivity. }
  destruct (n <? 0) eqn:E.
  - cbn [parse_int]. destruct (ascii_dec _ (ascii_of_nat 45)); [|congruence].
    cbn [orb]. rewrite parse_uint_fmt by lia. cbn [negb andb].
    destruct (2 ^ (bits - 1) <? - n) eqn:E2; [lia|]. f_equal; lia.
  - pose proof (fmt_uint_nonempty 10 n ltac:(lia) ltac:(lia)) as Hne.
    pose proof (fmt_uint_chars 10 n ltac:(lia) ltac:(lia)) as Hc.
    destruct (fmt_uint 10 n) as [|c l] eqn:Ef; [congruence|].
    inversion Hc as [|? ? (d & Hd & Hcd) _]; subst.
    pose proof (digit_char_not _ d Hd eq_refl) as Hr.
    cbn [parse_int].
    destruct (ascii_dec (digit_char d) (ascii_of_nat 45)) as [Hx|_].
    { rewrite Hx in Hr. rewrite nat_ascii_embedding in Hr by lia. lia. }
    destruct (ascii_dec (digit_char d) (ascii_of_nat 43)) as [Hx|_].
    { rewrite Hx in Hr. rewrite nat_ascii_embedding in Hr by lia. lia. }
    cbn [orb]. rewrite <- Ef, parse_uint_fmt by lia. cbn [negb andb].
    destruct (2 ^ (bits - 1) <=? n) eqn:E2; [lia|]. reflexivity.
Qed.

(** ** wrapping *)
Lemma wrap_u_range w z : 0 <= w -> 0 <= wrap_u w z < 2 ^ w.
Proof. intros Hw. apply Z.mod_pos_bound. apply Z.pow_pos_nonneg; lia. Qed.

Lemma wrap_u_id w z : 0 <= z < 2 ^ w -> wrap_u w z = z.
Proof. intros H. apply Z.mod_small; lia. Qed.

Lemma pow_half w : 0 < w -> 2 ^ w = 2 * 2 ^ (w - 1) /\ 0 < 2 ^ (w - 1).
Proof.
  intros Hw. split; [|apply Z.pow_pos_nonneg; lia].
  replace w with (Z.succ (w - 1)) at 1 by lia. apply Z.pow_succ_r; lia.
Qed.

Lemma wrap_s_range w z : 0 < w -> - 2 ^ (w - 1) <= wrap_s w z < 2 ^ (w - 1).
Proof.
  intros Hw. destruct (pow_half w Hw) as [H1 H2]. unfold wrap_s.
  pose proof (Z.mod_pos_bound (z + 2 ^ (w - 1)) (2 ^ w) ltac:(lia)). lia.
Qed.

Lemma wrap_s_id w z : 0 < w -> - 2 ^ (w - 1) <= z < 2 ^ (w - 1) -> wrap_s w z = z.
Proof.
  intros Hw H. destruct (pow_half w Hw) as [H1 H2]. unfold wrap_s.
  rewrite Z.mod_small by lia. lia.
Qed.

(** int64 <-> uint64 conversions are inverse bijections. *)
Lemma wrap_u_s w z : 0 < w -> wrap_u w (wrap_s w z) = wrap_u w z.
Proof.
  intros Hw. destruct (pow_half w Hw) as [H1 H2]. unfold wrap_u, wrap_s.
  rewrite Zminus_mod_idemp_l. f_equal. lia.
Qed.
Lemma wrap_s_u w z : 0 < w -> wrap_s w (wrap_u w z) = wrap_s w z.
Proof.
  intros Hw. unfold wrap_u, wrap_s. rewrite Zplus_mod_idemp_l. reflexivity.
Qed.

(** ** split *)
Lemma split_on_nonempty c s : split_on c s <> [].
Proof. destruct s as [|d s]; simpl; [congruence|]. destruct (ascii_dec d c); [congruence|]. destruct (split_on c s); congruence. Qed.

Lemma split_on_word c w : ~ In c w -> split_on c w = [w].
Proof.
  induction w as [|d w IH]; intros H; [reflexivity|]. simpl.
  destruct (ascii_dec d c) as [->|]; [exfalso; apply H; left; reflexivity|].
  rewrite IH; [reflexivity|]. intros Hx; apply H; right; exact Hx.
Qed.

Lemma split_on_cons c w s : ~ In c w -> split_on c (w ++ c :: s) = w :: split_on c s.
Proof.
  induction w as [|d w IH]; intros H.
  - simpl. destruct (ascii_dec c c); [reflexivity|congruence].
  - cbn [app split_on]. destruct (ascii_dec d c) as [->|]; [exfalso; apply H; left; reflexivity|].
    rewrite IH; [reflexivity|]. intros Hx; apply H; right; exact Hx.
Qed.

Lemma split_join c ws : ws <> [] -> Forall (fun w => ~ In c w) ws -> split_on c (join [c] ws) = ws.
Proof.
  intros Hne HF. induction ws as [|w ws IH]; [congruence|]. inversion HF; subst.
  destruct ws as [|v ws]; [apply split_on_word; assumption|].
  rewrite join_cons by congruence. change ([c] ++ ?x) with (c :: x).
  rewrite split_on_cons by assumption. f_equal. apply IH; [congruence|assumption].
Qed.
