(** Proofs about Time. *)
From Verif Require Import GoBase GoBaseFacts IdModel TimeModel TimeSpec TimeCal.
Open Scope Z_scope.

(** ** Padded numbers *)
Lemma pad_step w n : (0 < w)%nat -> 0 <= n < 10 ^ Z.of_nat (S w) -> pad (S w) n = pad w (n / 10) ++ [digit_char (n mod 10)].
Proof.
  intros Hw Hn. unfold pad. cbv zeta. destruct (Z_lt_dec n 10) as [L|L].
  - rewrite (fmt_uint_small 10 n) by lia. rewrite Z.div_small, Z.mod_small by lia. rewrite (fmt_uint_small 10 0) by lia. cbn [length].
    replace (S w - 1)%nat with (w - 1 + 1)%nat by lia. rewrite repeat_app. rewrite <- !app_assoc. reflexivity.
  - rewrite (fmt_uint_step 10 n) by lia. rewrite app_length. cbn [length]. replace (S w - (length (fmt_uint 10 (n / 10)) + 1))%nat with (w - length (fmt_uint 10 (n / 10)))%nat by lia.
    rewrite app_assoc. reflexivity.
Qed.
Fixpoint dg (w : nat) (n : Z) : list Z := match w with O => [] | S v => dg v (n / 10) ++ [n mod 10] end.
Lemma pad_dg w : (0 < w)%nat -> forall n, 0 <= n < 10 ^ Z.of_nat w -> pad w n = map digit_char (dg w n).
Proof.
  induction w as [|w IH]; intros Hw n Hn; [lia|]. destruct (Nat.eq_dec w 0) as [->|Hw0].
  - change (10 ^ Z.of_nat 1) with 10 in Hn. unfold pad. rewrite fmt_uint_small by lia. cbn. rewrite Z.mod_small by lia. reflexivity.
  - rewrite pad_step by (try lia; exact Hn). cbn [dg]. rewrite map_app, IH; [reflexivity|lia|].
    split; [apply Z.div_pos; lia|]. apply Z.div_lt_upper_bound; [lia|]. replace (Z.of_nat (S w)) with (Z.succ (Z.of_nat w)) in Hn by lia. rewrite Z.pow_succ_r in Hn by lia. lia.
Qed.
Lemma dg_length w : forall n, length (dg w n) = w.
Proof. induction w as [|w IH]; intros n; [reflexivity|]. cbn. rewrite app_length, IH. cbn. lia. Qed.
Lemma dg_range w : forall n, Forall (fun d => 0 <= d < 10) (dg w n).
Proof. induction w as [|w IH]; intros n; [constructor|]. cbn. apply Forall_app. split; [apply IH|]. constructor; [apply Z.mod_pos_bound; lia|constructor]. Qed.
Lemma nanos_app k : forall l d, (length l < k)%nat -> nanos k (l ++ [d]) = nanos k l + d * 10 ^ (Z.of_nat k - Z.of_nat (length l) - 1).
Proof.
  induction k as [|k IH]; intros l d H; [lia|]. destruct l as [|x l].
  - cbn [app nanos length]. replace (Z.of_nat (S k) - Z.of_nat 0 - 1) with (Z.of_nat k) by lia. destruct k; cbn [nanos]; lia.
  - cbn [app nanos length] in *. rewrite IH by lia. replace (Z.of_nat (S k) - Z.of_nat (S (length l)) - 1) with (Z.of_nat k - Z.of_nat (length l) - 1) by lia. lia.
Qed.
Lemma nanos_dg w : forall k n, (w <= k)%nat -> 0 <= n < 10 ^ Z.of_nat w -> nanos k (dg w n) = n * 10 ^ (Z.of_nat k - Z.of_nat w).
Proof.
  induction w as [|w IH]; intros k n Hk Hn.
  - change (10 ^ Z.of_nat 0) with 1 in Hn. replace n with 0 by lia. destruct k; reflexivity.
  - cbn [dg]. rewrite nanos_app by (rewrite dg_length; lia). rewrite dg_length. rewrite IH; [|lia|].
    + replace (Z.of_nat k - Z.of_nat w) with (Z.succ (Z.of_nat k - Z.of_nat (S w))) by lia. rewrite Z.pow_succ_r by lia.
      replace (Z.succ (Z.of_nat k - Z.of_nat (S w)) - 1) with (Z.of_nat k - Z.of_nat (S w)) by lia. pose proof (Z.div_mod n 10 ltac:(lia)). nia.
    + split; [apply Z.div_pos; lia|]. apply Z.div_lt_upper_bound; [lia|]. replace (Z.of_nat (S w)) with (Z.succ (Z.of_nat w)) in Hn by lia. rewrite Z.pow_succ_r in Hn by lia. lia.
Qed.
Lemma dg_firstn w : forall j n, firstn w (dg (w + j) n) = dg w (n / 10 ^ Z.of_nat j).
Proof.
  intros j. revert w. induction j as [|j IH]; intros w n.
  - rewrite Nat.add_0_r. change (10 ^ Z.of_nat 0) with 1. rewrite Z.div_1_r. apply firstn_all2. rewrite dg_length. lia.
  - rewrite Nat.add_succ_r. cbn [dg]. rewrite firstn_app, dg_length. replace (w - (w + j))%nat with O by lia. cbn [firstn]. rewrite app_nil_r, IH.
    f_equal. rewrite Z.div_div by (try lia; apply Z.pow_pos_nonneg; lia). f_equal. replace (Z.of_nat (S j)) with (Z.succ (Z.of_nat j)) by lia. rewrite Z.pow_succ_r by lia. lia.
Qed.
Lemma nanos_zeros k : forall l j, nanos k (l ++ repeat 0 j) = nanos k l.
Proof.
  induction k as [|k IH]; intros l j; [reflexivity|]. destruct l as [|x l]; cbn [app nanos].
  - destruct j as [|j]; [reflexivity|]. cbn [repeat nanos]. rewrite Z.mul_0_l. cbn [Z.add]. specialize (IH [] j). cbn [app] in IH. rewrite IH. destruct k; reflexivity.
  - rewrite IH. reflexivity.
Qed.

(** ** Fractions *)
Lemma strip_split l : Forall (fun d => 0 <= d < 10) l -> exists m j, l = repeat 0 j ++ m /\ strip_zeros (map digit_char l) = map digit_char m.
Proof.
  induction l as [|d l IH]; intros H; [exists [], O; split; reflexivity|]. inversion H as [|? ? H1 H2]; subst. cbn [map strip_zeros].
  destruct (ascii_dec (digit_char d) (ascii_of_nat 48)) as [E|E].
  - change (ascii_of_nat 48) with (digit_char 0) in E. apply digit_char_inj in E; [|lia|lia]. subst d. destruct (IH H2) as (m & j & -> & E2). exists m, (S j). split; [reflexivity|exact E2].
  - exists (d :: l), O. split; reflexivity.
Qed.
Lemma take_digits_map l : Forall (fun d => 0 <= d < 10) l -> forall c s, dec_digit c = None -> take_digits (map digit_char l ++ c :: s) = (l, c :: s).
Proof.
  induction l as [|d l IH]; intros H c s Hc; cbn [map app take_digits]; [rewrite Hc; reflexivity|]. inversion H as [|? ? H1 H2]; subst.
  rewrite dec_digit_char by exact H1. rewrite IH by assumption. reflexivity.
Qed.
Lemma repeat_rev {A} (x : A) n : rev (repeat x n) = repeat x n.
Proof. induction n as [|n IH]; [reflexivity|]. cbn [repeat rev]. rewrite IH. clear IH. induction n as [|n IH]; [reflexivity|]. cbn. rewrite IH. reflexivity. Qed.
Lemma frac_back k n c s : (k <= 9)%nat -> 0 <= n < 1000000000 -> dec_digit c = None -> c <> ascii_of_nat 46 -> c <> ascii_of_nat 44 ->
  get_frac (fmt_frac k n ++ c :: s) = (n - n mod 10 ^ (9 - Z.of_nat k), c :: s).
Proof.
  intros Hk Hn Hc N1 N2. unfold fmt_frac. cbv zeta. rewrite pad_dg by (try lia; exact Hn). rewrite firstn_map.
  assert (F : firstn k (dg 9 n) = dg k (n / 10 ^ Z.of_nat (9 - k))) by (replace 9%nat with (k + (9 - k))%nat at 1 by lia; apply dg_firstn). rewrite F. clear F.
  set (j := (9 - k)%nat) in *. set (m := n / 10 ^ Z.of_nat j).
  assert (Hj : 9 - Z.of_nat k = Z.of_nat j) by (unfold j; lia). rewrite Hj.
  assert (Hp : 0 < 10 ^ Z.of_nat j) by (apply Z.pow_pos_nonneg; lia).
  assert (Hm : 0 <= m < 10 ^ Z.of_nat k).
  { unfold m. split; [apply Z.div_pos; lia|]. apply Z.div_lt_upper_bound; [lia|]. rewrite <- Z.pow_add_r by lia. replace (Z.of_nat j + Z.of_nat k) with 9 by lia. exact (proj2 Hn). }
  assert (Hv : n - n mod 10 ^ Z.of_nat j = m * 10 ^ Z.of_nat j) by (pose proof (Z.div_mod n (10 ^ Z.of_nat j) ltac:(lia)); unfold m; lia).
  rewrite Hv. rewrite <- map_rev. destruct (strip_split (rev (dg k m)) (Forall_rev (dg_range k m))) as (q & z & E1 & E2). rewrite E2, <- map_rev.
  assert (Eq : dg k m = rev q ++ repeat 0 z).
  { rewrite <- (rev_involutive (dg k m)), E1, rev_app_distr, repeat_rev. reflexivity. }
  assert (Nv : nanos 9 (rev q) = m * 10 ^ Z.of_nat j).
  { rewrite <- (nanos_zeros 9 (rev q) z), <- Eq, nanos_dg by (try lia; exact Hm). f_equal. f_equal. lia. }
  destruct (rev q) as [|x t] eqn:Er.
  - cbn [map is_empty app]. change (nanos 9 []) with 0 in Nv. unfold get_frac.
    destruct (ascii_dec c (ascii_of_nat 46)); [contradiction|]. destruct (ascii_dec c (ascii_of_nat 44)); [contradiction|]. rewrite <- Nv. reflexivity.
  - cbn [map is_empty app]. unfold get_frac. destruct (ascii_dec (ascii_of_nat 46) (ascii_of_nat 46)) as [_|X]; [|congruence].
    change (digit_char x :: map digit_char t ++ c :: s) with (map digit_char (x :: t) ++ c :: s).
    rewrite take_digits_map; [rewrite Nv; reflexivity| |exact Hc].
    assert (R : Forall (fun d => 0 <= d < 10) (rev q ++ repeat 0 z)) by (rewrite <- Er in Eq; rewrite <- Eq; apply dg_range).
    apply Forall_app in R as [R _]. rewrite Er in R. exact R.
Qed.

(** ** Two digits *)
Lemma pad2 n : 0 <= n < 100 -> pad 2 n = two n.
Proof.
  intros H. rewrite pad_dg by (try lia; exact H). unfold two. cbn [dg app map]. rewrite (Z.mod_small (n / 10) 10); [reflexivity|].
  split; [apply Z.div_pos; lia|apply Z.div_lt_upper_bound; lia].
Qed.
Lemma pad4 n : 0 <= n < 10000 -> pad 4 n = two (n / 100) ++ two (n mod 100).
Proof.
  intros H. rewrite pad_dg by (try lia; exact H). unfold two. cbn [dg app map].
  rewrite !Z.div_div by lia. change (10 * 10) with 100. change (100 * 10) with 1000. change (10 * 100) with 1000.
  assert (A : n / 1000 mod 10 = n / 1000). { apply Z.mod_small. split; [apply Z.div_pos; lia|apply Z.div_lt_upper_bound; lia]. }
  assert (Bq : n mod 100 / 10 = n / 10 mod 10). { rewrite (Z.mod_eq n 100), (Z.mod_eq (n / 10) 10) by lia. rewrite Z.div_div by lia. change (10 * 10) with 100.
    replace (n - 100 * (n / 100)) with (n + (- (10 * (n / 100))) * 10) by lia. rewrite Z.div_add by lia. lia. }
  assert (Cq : n mod 100 mod 10 = n mod 10). { rewrite (Z.mod_eq n 100) by lia. replace (n - 100 * (n / 100)) with (n + (- (10 * (n / 100))) * 10) by lia. apply Z.mod_add. lia. }
  rewrite A, Bq, Cq. reflexivity.
Qed.
Lemma getnum_two fixed n s : 0 <= n < 100 -> getnum fixed (two n ++ s) = Some (n, s).
Proof.
  intros H. unfold two. cbn [app getnum]. rewrite !dec_digit_char by (try apply Z.mod_pos_bound; try (split; [apply Z.div_pos|apply Z.div_lt_upper_bound]); lia).
  f_equal. f_equal. pose proof (Z.div_mod n 10 ltac:(lia)). lia.
Qed.
Lemma ranged_in lo hi v s : lo <= v <= hi -> ranged lo hi (Some (v, s)) = Some (v, s).
Proof. intros H. unfold ranged. destruct (_ && _) eqn:E; [reflexivity|]. apply not_true_iff_false in E. exfalso. apply E. rewrite andb_true_iff, !Z.leb_le. exact H. Qed.
Lemma lit_eq c s : lit c (c :: s) = Some s.
Proof. unfold lit. destruct (ascii_dec c c); [reflexivity|congruence]. Qed.
Lemma lit_dash s : lit (ascii_of_nat 45) (B "-" ++ s) = Some s. Proof. exact (lit_eq (ascii_of_nat 45) s). Qed.
Lemma lit_colon s : lit (ascii_of_nat 58) (B ":" ++ s) = Some s. Proof. exact (lit_eq (ascii_of_nat 58) s). Qed.
Lemma lit_T s : lit (ascii_of_nat 84) (B "T" ++ s) = Some s. Proof. exact (lit_eq (ascii_of_nat 84) s). Qed.
Lemma skip_digit c s : dec_digit c <> None -> skip_blank (B " " ++ c :: s) = Some (c :: s).
Proof.
  intros H. unfold skip_blank. cbn [app B list_ascii_of_string]. destruct (ascii_dec " " (ascii_of_nat 32)) as [_|N]; [|exfalso; apply N; reflexivity].
  cbn [trim_left]. change (in_set [ascii_of_nat 32] " ") with true. cbv iota. destruct (in_set [ascii_of_nat 32] c) eqn:E; [|reflexivity].
  exfalso. unfold in_set in E. cbn [existsb] in E. destruct (ascii_dec c (ascii_of_nat 32)) as [->|]; [apply H; reflexivity|discriminate].
Qed.
Lemma get_date_text y m d s : 0 <= y <= 9999 -> valid_day y m d -> get_date (date_text y m d ++ s) = Some (days_of y m d, s).
Proof.
  intros Hy [Hm Hd]. assert (Hl : month_len y m <= 31). { unfold month_len. repeat match goal with |- context [if ?b then _ else _] => destruct b end; lia. }
  unfold get_date, date_text, get_year. rewrite <- !app_assoc.
  rewrite getnum_two by (split; [apply Z.div_pos|apply Z.div_lt_upper_bound]; lia). rewrite getnum_two by (apply Z.mod_pos_bound; lia).
  replace (y / 100 * 100 + y mod 100) with y by (pose proof (Z.div_mod y 100 ltac:(lia)); lia).
  rewrite lit_dash, getnum_two, ranged_in, lit_dash, getnum_two by lia.
  rewrite days_in_len by exact Hm. destruct (_ && _) eqn:E; [reflexivity|]. apply not_true_iff_false in E. exfalso. apply E. rewrite andb_true_iff, !Z.leb_le. lia.
Qed.
Lemma get_clock_text h mi se s : 0 <= h <= 23 -> 0 <= mi <= 59 -> 0 <= se <= 59 -> get_clock (clock_text h mi se ++ s) = Some (h * 3600 + mi * 60 + se, s).
Proof.
  intros Hh Hm Hs. unfold get_clock, clock_text. rewrite <- !app_assoc.
  rewrite getnum_two, ranged_in, lit_colon, getnum_two, ranged_in, lit_colon, getnum_two, ranged_in by lia. reflexivity.
Qed.
Lemma fmt_date_text d : let '(y, m, dd) := civil d in 0 <= y <= 9999 -> fmt_date d = date_text y m dd.
Proof.
  unfold fmt_date. pose proof (cal_all d) as C. destruct (civil d) as [[y m] dd]. destruct C as (_ & [Hm Hd] & _). intros Hy.
  assert (Hl : month_len y m <= 31). { unfold month_len. repeat match goal with |- context [if ?b then _ else _] => destruct b end; lia. }
  unfold fmt_year, date_text. destruct (y <? 0) eqn:E; [apply Z.ltb_lt in E; lia|]. rewrite pad4, !pad2 by lia. rewrite <- !app_assoc. reflexivity.
Qed.
Lemma fmt_clock_text s : 0 <= s < 86400 -> fmt_clock s = clock_text (s / 3600) (s / 60 mod 60) (s mod 60).
Proof.
  intros H. unfold fmt_clock, clock_text. rewrite !pad2; [reflexivity|..].
  - pose proof (Z.mod_pos_bound s 60 ltac:(lia)). lia.
  - pose proof (Z.mod_pos_bound (s / 60) 60 ltac:(lia)). lia.
  - split; [apply Z.div_pos; lia|apply Z.div_lt_upper_bound; lia].
Qed.
Lemma clock_value s : 0 <= s < 86400 -> s / 3600 * 3600 + s / 60 mod 60 * 60 + s mod 60 = s /\ 0 <= s / 3600 <= 23 /\ 0 <= s / 60 mod 60 <= 59 /\ 0 <= s mod 60 <= 59.
Proof.
  intros H. pose proof (Z.div_mod s 60 ltac:(lia)). pose proof (Z.div_mod (s / 60) 60 ltac:(lia)). rewrite Z.div_div in * by lia. change (60 * 60) with 3600 in *.
  pose proof (Z.mod_pos_bound s 60 ltac:(lia)). pose proof (Z.mod_pos_bound (s / 60) 60 ltac:(lia)).
  assert (0 <= s / 3600 < 24) by (split; [apply Z.div_pos; lia|apply Z.div_lt_upper_bound; lia]). lia.
Qed.

(** ** Parse inverts Format *)
Lemma parse_format k t : (k <= 9)%nat -> time_ok t -> 0 <= year_of t <= 9999 ->
  parse_rfc3339 (time_format k t) = Some (mkTime (t_sec t) (t_nsec t - t_nsec t mod 10 ^ (9 - Z.of_nat k))).
Proof.
  intros Hk Ht Hy. unfold time_format. unfold year_of in Hy. pose proof (fmt_date_text (t_sec t / 86400)) as FD. pose proof (cal_all (t_sec t / 86400)) as C.
  destruct (civil (t_sec t / 86400)) as [[y m] dd]. rewrite FD by exact Hy. destruct C as (C1 & C2 & _).
  pose proof (Z.mod_pos_bound (t_sec t) 86400 ltac:(lia)) as HS. rewrite fmt_clock_text by exact HS. destruct (clock_value _ HS) as (V & V1 & V2 & V3).
  unfold parse_rfc3339. change (B "Z") with [ascii_of_nat 90].
  rewrite get_date_text by assumption. rewrite lit_T. rewrite get_clock_text by assumption.
  rewrite frac_back; [|exact Hk|exact Ht|reflexivity|discriminate|discriminate].
  unfold get_zone. destruct (ascii_dec (ascii_of_nat 90) (ascii_of_nat 90)) as [_|X]; [|congruence]. cbn [finished].
  rewrite C1, V, Z.sub_0_r. do 2 f_equal. pose proof (Z.div_mod (t_sec t) 86400 ltac:(lia)). lia.
Qed.
Lemma format_length k t : 0 <= year_of t <= 9999 -> (20 <= length (time_format k t))%nat.
Proof.
  intros Hy. unfold time_format, year_of in *. pose proof (fmt_date_text (t_sec t / 86400)) as FD. destruct (civil (t_sec t / 86400)) as [[y m] dd]. rewrite FD by exact Hy.
  rewrite fmt_clock_text by (apply Z.mod_pos_bound; lia). rewrite !app_length. cbn. lia.
Qed.
Lemma trunc_eq t : time_ok t -> trunc_ms t = mkTime (t_sec t) (t_nsec t - t_nsec t mod 1000000).
Proof.
  intros [H1 H2]. unfold trunc_ms, time_add, nano. pose proof (Z.mod_pos_bound (t_nsec t) 1000000 ltac:(lia)) as M. pose proof (Z.mod_le (t_nsec t) 1000000 H1 ltac:(lia)).
  rewrite Z.quot_opp_l, Z.rem_opp_l by lia. rewrite Z.quot_small, Z.rem_small by lia. cbn [Z.opp].
  destruct (1000000000 <=? _) eqn:E; [apply Z.leb_le in E; lia|]. destruct (_ <? 0) eqn:E2; [apply Z.ltb_lt in E2; lia|]. f_equal; lia.
Qed.
Lemma parse_time_long s : (20 <= length s)%nat -> parse_time s = trunc_ms (match parse_rfc3339 s with Some t => t | None => zero_time end).
Proof.
  intros H. unfold parse_time. destruct s as [|c s]; [cbn in H; lia|]. cbn [is_empty]. do 20 (destruct s as [|? s]; [cbn in H; lia|cbn [length] in H]) || idtac.
  cbn [length]. reflexivity.
Qed.
Lemma ns_trunc t : time_ok t -> ns_of (trunc_ms t) = floor_ms (ns_of t) /\ time_ok (trunc_ms t).
Proof.
  intros H. rewrite trunc_eq by exact H. unfold ns_of, floor_ms, time_ok, nano in *. cbn [t_sec t_nsec].
  pose proof (Z.div_mod (t_nsec t) 1000000 ltac:(lia)). pose proof (Z.mod_pos_bound (t_nsec t) 1000000 ltac:(lia)).
  replace (t_sec t * 1000000000 + t_nsec t) with (t_nsec t + t_sec t * 1000 * 1000000) by lia. rewrite Z.div_add by lia. split; [lia|].
  split; [pose proof (Z.mod_le (t_nsec t) 1000000 ltac:(lia) ltac:(lia)); lia|lia].
Qed.
Lemma ns_add t d : time_ok t -> ns_of (time_add t d) = ns_of t + d /\ time_ok (time_add t d).
Proof.
  intros H. unfold time_add, ns_of, time_ok, nano in *. pose proof (Z.quot_rem' d 1000000000) as Q.
  assert (R : -1000000000 < Z.rem d 1000000000 < 1000000000).
  { pose proof (Z.rem_bound_abs d 1000000000 ltac:(lia)). lia. }
  destruct (1000000000 <=? _) eqn:E; [apply Z.leb_le in E|apply Z.leb_gt in E]; cbn [t_sec t_nsec]; [lia|].
  destruct (_ <? 0) eqn:E2; [apply Z.ltb_lt in E2|apply Z.ltb_ge in E2]; cbn [t_sec t_nsec]; lia.
Qed.
Lemma ns_inj a b : time_ok a -> time_ok b -> ns_of a = ns_of b -> a = b.
Proof. destruct a as [s n], b as [s' n']. unfold time_ok, ns_of, nano. cbn. intros. assert (s = s') by lia. subst. f_equal. lia. Qed.

(** ** More facts for the property theorems *)
Lemma civil_gregorian_pos n : gregorian (Z.of_nat n) (civil (Z.of_nat n)).
Proof.
  induction n as [|n IH]; [exact gr_first|]. replace (Z.of_nat (S n)) with (Z.of_nat n + 1) by lia.
  pose proof (cal_all (Z.of_nat n)) as C. destruct (civil (Z.of_nat n)) as [[y m] d]. destruct C as (_ & _ & C). rewrite C. apply gr_next. exact IH.
Qed.
Lemma civil_gregorian_neg n : gregorian (- Z.of_nat n) (civil (- Z.of_nat n)).
Proof.
  induction n as [|n IH]; [exact gr_first|]. pose proof (cal_all (- Z.of_nat (S n))) as C. destruct (civil (- Z.of_nat (S n))) as [[y m] d] eqn:E.
  destruct C as (_ & V & C). apply gr_prev; [exact V|]. rewrite <- C. replace (- Z.of_nat (S n) + 1) with (- Z.of_nat n) by lia. exact IH.
Qed.
Lemma civil_gregorian d : gregorian d (civil d).
Proof.
  destruct (Z_le_dec 0 d); [rewrite <- (Z2Nat.id d) by lia; apply civil_gregorian_pos|].
  replace d with (- Z.of_nat (Z.to_nat (- d))) by lia. apply civil_gregorian_neg.
Qed.
Lemma next_day_inj x x' : (let '(y, m, d) := x in valid_day y m d) -> (let '(y, m, d) := x' in valid_day y m d) -> next_day x = next_day x' -> x = x'.
Proof.
  destruct x as [[y m] d], x' as [[y' m'] d']. intros V V' E.
  pose proof (cal_all (days_of y m d)) as C. rewrite civil_days in C by exact V. destruct C as (_ & _ & C).
  pose proof (cal_all (days_of y' m' d')) as C'. rewrite civil_days in C' by exact V'. destruct C' as (_ & _ & C').
  rewrite E, <- C' in C.
  assert (I : forall a b, civil a = civil b -> a = b).
  { intros a b Hab. pose proof (cal_all a) as A. pose proof (cal_all b) as Bb. rewrite Hab in A. destruct (civil b) as [[yb mb] db]. destruct A as [A _], Bb as [Bb _]. lia. }
  apply I in C. assert (D : days_of y m d = days_of y' m' d') by lia. rewrite <- (civil_days y m d V), <- (civil_days y' m' d' V'), D. reflexivity.
Qed.
Lemma gregorian_civil d x : gregorian d x -> x = civil d.
Proof.
  induction 1 as [|n x H IH|n x V H IH]; [reflexivity| |].
  - subst x. pose proof (cal_all n) as C. destruct (civil n) as [[y m] dd]. destruct C as (_ & _ & C). symmetry. exact C.
  - pose proof (cal_all n) as C. destruct (civil n) as [[y m] dd] eqn:E. destruct C as (_ & V' & C). rewrite C in IH.
    apply next_day_inj; [exact V|exact V'|exact IH].
Qed.
Lemma frac_ms_check : check_range (fun ms => if ms <? 1000 then beqb (let s := rev (strip_zeros (rev (map digit_char (dg 3 ms)))) in if is_empty s then [] else ascii_of_nat 46 :: s) (ms_text ms) else true) 10 0 = true.
Proof. vm_compute. reflexivity. Qed.
Lemma fmt_frac_ms n : 0 <= n < 1000000000 -> fmt_frac 3 n = ms_text (n / 1000000).
Proof.
  intros H. unfold fmt_frac. cbv zeta. rewrite pad_dg by (try lia; exact H). rewrite firstn_map.
  change 9%nat with (3 + 6)%nat. rewrite dg_firstn. change (10 ^ Z.of_nat 6) with 1000000. set (ms := n / 1000000).
  assert (R : 0 <= ms < 1000) by (unfold ms; split; [apply Z.div_pos; lia|apply Z.div_lt_upper_bound; lia]).
  assert (R2 : 0 <= ms < 0 + 2 ^ Z.of_nat 10) by (change (2 ^ Z.of_nat 10) with 1024; lia).
  pose proof (check_range_spec _ 10 0 frac_ms_check ms R2) as C. cbv beta in C. destruct (ms <? 1000) eqn:L; [|apply Z.ltb_ge in L; lia].
  apply beqb_eq in C. exact C.
Qed.

(** *** Every parsed fraction is below a second *)
Lemma nanos_range k : forall l, Forall (fun d => 0 <= d < 10) l -> 0 <= nanos k l < 10 ^ Z.of_nat k.
Proof.
  induction k as [|k IH]; intros l H; [cbn; lia|]. assert (P : 0 < 10 ^ Z.of_nat k) by (apply Z.pow_pos_nonneg; lia).
  replace (Z.of_nat (S k)) with (Z.succ (Z.of_nat k)) by lia. rewrite Z.pow_succ_r by lia. destruct l as [|d l]; cbn [nanos]; [lia|].
  inversion H as [|? ? H1 H2]; subst. pose proof (IH l H2). nia.
Qed.
Lemma take_digits_range s : Forall (fun d => 0 <= d < 10) (fst (take_digits s)).
Proof.
  induction s as [|c s IH]; [constructor|]. cbn [take_digits]. destruct (dec_digit c) as [d|] eqn:E; [|constructor]. destruct (take_digits s) as [l t]. cbn [fst] in *.
  constructor; [exact (proj1 (dec_digit_range c d E))|exact IH].
Qed.
Lemma get_frac_range s : 0 <= fst (get_frac s) < 1000000000.
Proof.
  unfold get_frac. destruct s as [|c r]; [cbn; lia|]. destruct (if ascii_dec c (ascii_of_nat 46) then true else if ascii_dec c (ascii_of_nat 44) then true else false); [|cbn; lia].
  pose proof (take_digits_range r) as T. destruct (take_digits r) as [[|d l] t]; [cbn; lia|]. cbn [fst] in *. exact (nanos_range 9 (d :: l) T).
Qed.
Lemma finished_ok x t : (forall s n r, x = Some (s, n, r) -> 0 <= n < 1000000000) -> finished x = Some t -> time_ok t.
Proof. intros P H. destruct x as [[[s n] [|c r]]|]; try discriminate. injection H as <-. exact (P s n [] eq_refl). Qed.
Lemma parse_rfc3339_ok s t : parse_rfc3339 s = Some t -> time_ok t.
Proof.
  apply finished_ok. intros a n r. destruct (get_date s) as [[d s1]|]; [|discriminate]. destruct (lit _ s1) as [s2|]; [|discriminate].
  destruct (get_clock s2) as [[c s3]|]; [|discriminate]. pose proof (get_frac_range s3) as F. destruct (get_frac s3) as [n' s4]. destruct (get_zone s4) as [[z s5]|]; [|discriminate].
  intros H. injection H as _ <- _. exact F.
Qed.
Lemma parse_datetime_ok s t : parse_datetime s = Some t -> time_ok t.
Proof.
  apply finished_ok. intros a n r. destruct (get_date s) as [[d s1]|]; [|discriminate]. destruct (skip_blank s1) as [s2|]; [|discriminate].
  destruct (get_clock s2) as [[c s3]|]; [|discriminate]. pose proof (get_frac_range s3) as F. destruct (get_frac s3) as [n' s4].
  intros H. injection H as _ <- _. exact F.
Qed.
Lemma parse_dateonly_ok s t : parse_dateonly s = Some t -> time_ok t.
Proof.
  apply finished_ok. intros a n r. destruct (get_date s) as [[d s1]|]; [|discriminate]. intros H. injection H as _ <- _. lia.
Qed.
Lemma zero_ok : time_ok zero_time. Proof. unfold time_ok. cbn. lia. Qed.
Lemma parse_time_trunc s : exists t, time_ok t /\ parse_time s = trunc_ms t.
Proof.
  unfold parse_time. destruct (is_empty s); [exists zero_time; split; [exact zero_ok|reflexivity]|].
  match goal with |- exists t, _ /\ trunc_ms (match ?r with Some _ => _ | None => _ end) = _ => set (q := r) end.
  assert (Q : forall t, q = Some t -> time_ok t).
  { unfold q. intros t. do 20 (try match goal with |- match ?n with O => _ | S _ => _ end = _ -> _ => destruct n end);
      try apply parse_rfc3339_ok; try apply parse_datetime_ok; apply parse_dateonly_ok. }
  destruct q as [t|]; [exists t; split; [apply Q|]; reflexivity|exists zero_time; split; [exact zero_ok|reflexivity]].
Qed.
Lemma trunc_idem t : time_ok t -> trunc_ms (trunc_ms t) = trunc_ms t.
Proof.
  intros H. destruct (ns_trunc t H) as [E K]. destruct (ns_trunc _ K) as [E2 K2]. apply ns_inj; [exact K2|exact K|]. rewrite E2, E. unfold floor_ms. rewrite Z.div_mul by lia. reflexivity.
Qed.

(** *** Unix milliseconds *)
Lemma from_unix_ns v : ns_of (from_unix_milli v) = v * 1000000 + unix_epoch * nano /\ time_ok (from_unix_milli v).
Proof.
  unfold from_unix_milli, time_unix. pose proof (Z.quot_rem' v 1000) as Q. pose proof (Z.rem_bound_abs v 1000 ltac:(lia)) as R.
  unfold nano. set (q := Z.quot v 1000) in *. set (r := Z.rem v 1000) in *.
  destruct ((r * 1000000 <? 0) || (1000000000 <=? r * 1000000)) eqn:E.
  - assert (Hneg : -1000 < r < 0). { apply orb_true_iff in E as [E|E]; [apply Z.ltb_lt in E|apply Z.leb_le in E]; lia. }
    replace (Z.quot (r * 1000000) 1000000000) with 0 by (rewrite <- (Z.opp_involutive (r * 1000000)), Z.quot_opp_l, Z.quot_small by lia; reflexivity).
    destruct (r * 1000000 - 0 * 1000000000 <? 0) eqn:E2; [|apply Z.ltb_ge in E2; lia]. unfold ns_of, time_ok, nano, unix_epoch. cbn [t_sec t_nsec]. lia.
  - apply orb_false_iff in E as [E1 E2]. apply Z.ltb_ge in E1. apply Z.leb_gt in E2. unfold ns_of, time_ok, nano, unix_epoch. cbn [t_sec t_nsec]. lia.
Qed.
Lemma unix_milli_back v : - 2 ^ 63 <= v < 2 ^ 63 -> unix_milli (from_unix_milli v) = v.
Proof.
  intros H. destruct (from_unix_ns v) as [E K]. unfold unix_milli. transitivity (i64 v); [|exact (wrap_s_id 64 v ltac:(lia) H)]. f_equal.
  unfold ns_of, time_ok, nano, unix_epoch in *. set (t := from_unix_milli v) in *. pose proof (Z.div_mod (t_nsec t) 1000000 ltac:(lia)). pose proof (Z.mod_pos_bound (t_nsec t) 1000000 ltac:(lia)). lia.
Qed.

(** *** Texts outside the four-digit years *)
Lemma pad_digits w n : 0 <= n -> Forall (fun c => dec_digit c <> None) (pad w n).
Proof.
  intros H. unfold pad. cbv zeta. apply Forall_app. split; [apply Forall_forall; intros c Hc; apply repeat_spec in Hc; subst c; discriminate|].
  revert n H. apply (fmt_uint_ind (fun _ s => Forall (fun c => dec_digit c <> None) s) 10 ltac:(lia)).
  - intros n Hn. constructor; [rewrite dec_digit_char by lia; discriminate|constructor].
  - intros n Hn HI. apply Forall_app. split; [exact HI|]. constructor; [rewrite dec_digit_char by (apply Z.mod_pos_bound; lia); discriminate|constructor].
Qed.
Lemma fmt_len5 n : 10000 <= n -> (5 <= length (fmt_uint 10 n))%nat.
Proof.
  intros H. assert (S : forall m, 10 <= m -> length (fmt_uint 10 m) = S (length (fmt_uint 10 (m / 10)))) by (intros m Hm; rewrite fmt_uint_step by lia; rewrite app_length; cbn; lia).
  assert (D : forall m k, 10 * k <= m -> k <= m / 10) by (intros m k Hm; apply Z.div_le_lower_bound; lia).
  pose proof (D n 1000 ltac:(lia)) as D1. pose proof (D _ 100 D1) as D2. pose proof (D _ 10 D2) as D3.
  rewrite !S by lia. pose proof (fmt_uint_nonempty 10 (n / 10 / 10 / 10 / 10) ltac:(lia) ltac:(apply Z.div_pos; lia)) as N.
  destruct (fmt_uint 10 (n / 10 / 10 / 10 / 10)); [congruence|cbn; lia].
Qed.
Lemma get_date_far y s : ~ 0 <= y <= 9999 -> get_date (fmt_year y ++ s) = None.
Proof.
  intros H. unfold fmt_year. destruct (y <? 0) eqn:E; [reflexivity|]. apply Z.ltb_ge in E.
  pose proof (pad_digits 4 y E) as D. assert (L : (5 <= length (pad 4 y))%nat). { unfold pad. cbv zeta. rewrite app_length. pose proof (fmt_len5 y ltac:(lia)). lia. }
  destruct (pad 4 y) as [|a [|b [|c [|d [|e r]]]]]; cbn [length] in L; try lia. repeat (apply Forall_cons_iff in D as [? D]).
  unfold get_date, get_year. cbn [app getnum]. destruct (dec_digit a); [|congruence]. destruct (dec_digit b); [|congruence]. cbn [getnum]. destruct (dec_digit c); [|congruence]. destruct (dec_digit d); [|congruence].
  cbn [lit]. destruct (ascii_dec e (ascii_of_nat 45)) as [->|]; [exfalso; match goal with K : dec_digit (ascii_of_nat 45) <> None |- _ => apply K; reflexivity end|reflexivity].
Qed.
Lemma parse_far t s : ~ 0 <= year_of t <= 9999 -> parse_time (fmt_date (t_sec t / 86400) ++ s) = zero_time.
Proof.
  intros H. assert (G : get_date (fmt_date (t_sec t / 86400) ++ s) = None).
  { unfold fmt_date. unfold year_of in H. destruct (civil (t_sec t / 86400)) as [[y m] d]. rewrite <- !app_assoc. apply get_date_far. exact H. }
  set (x := fmt_date (t_sec t / 86400) ++ s) in *. unfold parse_time. destruct (is_empty x); [reflexivity|].
  unfold parse_datetime, parse_dateonly, parse_rfc3339. rewrite G. cbn [finished].
  do 20 (try match goal with |- context [match ?n with O => _ | S _ => _ end] => destruct n end); reflexivity.
Qed.

(** *** JSON strings *)
Definition plainc (c : ascii) : Prop := c <> dquote /\ c <> ascii_of_nat 92 /\ (32 <= nat_of_ascii c)%nat.
Lemma plain_digit c : dec_digit c <> None -> plainc c.
Proof.
  intros H. assert (E : forallb (fun c => match dec_digit c with None => true | Some _ => (if ascii_dec c dquote then false else true) && (if ascii_dec c (ascii_of_nat 92) then false else true) && (32 <=? nat_of_ascii c)%nat end) (map ascii_of_nat (seq 0 256)) = true) by (vm_compute; reflexivity).
  rewrite forallb_forall in E. specialize (E c). destruct (dec_digit c) as [d|]; [|congruence].
  assert (I : In c (map ascii_of_nat (seq 0 256))). { apply in_map_iff. exists (nat_of_ascii c). split; [apply ascii_nat_embedding|]. apply in_seq. pose proof (nat_ascii_bounded c). lia. }
  specialize (E I). rewrite !andb_true_iff, Nat.leb_le in E. unfold plainc. destruct E as [[E1 E2] E3]. destruct (ascii_dec c dquote); [discriminate|]. destruct (ascii_dec c (ascii_of_nat 92)); [discriminate|]. auto.
Qed.
Lemma plain_pad w n : 0 <= n -> Forall plainc (pad w n).
Proof. intros H. eapply Forall_impl; [|apply pad_digits, H]. exact plain_digit. Qed.
Lemma plain_lit c : plainc c -> Forall plainc [c]. Proof. auto. Qed.
Lemma strip_incl s c : In c (strip_zeros s) -> In c s.
Proof. induction s as [|a s IH]; cbn; [tauto|]. destruct (ascii_dec a _); intros H; [right; auto|exact H]. Qed.
Lemma plain_format k t : time_ok t -> 0 <= year_of t <= 9999 -> Forall plainc (time_format k t).
Proof.
  assert (P : forall c, In c (B "-:TZ.") -> plainc c).
  { intros c Hc. cbn in Hc. repeat destruct Hc as [<-|Hc]; try contradiction; (split; [discriminate|split; [discriminate|]]); vm_compute; repeat constructor. }
  intros [Ht _] Hy. unfold time_format, fmt_date, year_of in *. pose proof (cal_all (t_sec t / 86400)) as C. destruct (civil (t_sec t / 86400)) as [[y m] dd]. destruct C as (_ & V & _).
  destruct V as [Vm Vd]. pose proof (Z.mod_pos_bound (t_sec t) 86400 ltac:(lia)) as HS. destruct (clock_value _ HS) as (_ & V1 & V2 & V3).
  unfold fmt_clock, fmt_year. destruct (y <? 0) eqn:E; [lia|].
  rewrite !Forall_app. repeat split; try (apply plain_pad; lia); try (apply plain_lit, P; cbn; tauto).
  unfold fmt_frac. cbv zeta. match goal with |- Forall _ (if is_empty ?x then _ else _) => assert (F : Forall plainc x); [|destruct (is_empty x); [constructor|constructor; [apply P; cbn; tauto|exact F]]] end.
  apply Forall_rev. apply Forall_forall. intros c Hc. apply strip_incl in Hc. apply in_rev in Hc. pose proof (plain_pad 9 (t_nsec t) Ht) as Q. rewrite Forall_forall in Q. apply Q.
  rewrite <- (firstn_skipn k (pad 9 (t_nsec t))). apply in_app_iff. left. exact Hc.
Qed.
Lemma json_tail_plain s : Forall plainc s -> json_tail (s ++ [dquote]) = true.
Proof.
  induction 1 as [|c s (H1 & H2 & H3) _ IH]; [reflexivity|]. cbn [app json_tail]. destruct (ascii_dec c dquote); [congruence|]. destruct (ascii_dec c (ascii_of_nat 92)); [congruence|].
  apply Nat.leb_le in H3. rewrite H3. exact IH.
Qed.
Lemma unquote_quoted s : Forall plainc s -> unquote ([dquote] ++ s ++ [dquote]) = Some s.
Proof.
  intros H. cbn [app unquote]. destruct (ascii_dec dquote dquote) as [_|N]; [|congruence]. rewrite json_tail_plain by exact H. rewrite removelast_last. reflexivity.
Qed.
Lemma json_tail_ends s : json_tail s = true -> s = removelast s ++ [dquote].
Proof.
  assert (G : forall n s, (length s <= n)%nat -> json_tail s = true -> exists r, s = r ++ [dquote]).
  { induction n as [|n IH]; intros [|c r] L H; cbn [length] in L; try lia; try discriminate. cbn [json_tail] in H.
    destruct (ascii_dec c dquote) as [->|]; [destruct r; [exists []; reflexivity|discriminate]|].
    destruct (ascii_dec c (ascii_of_nat 92)) as [Eb|Eb].
    - destruct r as [|e r']; [discriminate|]. destruct (in_set _ e); [destruct (IH r') as (q & ->); [cbn in L; lia|exact H|]; exists (c :: e :: q); reflexivity|].
      destruct (ascii_dec e (ascii_of_nat 117)); [|discriminate]. destruct r' as [|h1 [|h2 [|h3 [|h4 r'']]]]; try discriminate.
      rewrite !andb_true_iff in H. destruct H as [_ H]. destruct (IH r'') as (q & ->); [cbn in L; lia|exact H|]. exists (c :: e :: h1 :: h2 :: h3 :: h4 :: q). reflexivity.
    - apply andb_true_iff in H as [_ H]. destruct (IH r) as (q & ->); [cbn in L; lia|exact H|]. exists (c :: q). reflexivity. }
  intros H. destruct (G (length s) s (le_n _) H) as (r & ->). rewrite removelast_last. reflexivity.
Qed.
Lemma unquote_form v s : unquote v = Some s -> v = [dquote] ++ s ++ [dquote].
Proof.
  unfold unquote. destruct v as [|c r]; [discriminate|]. destruct (ascii_dec c dquote) as [->|]; [|discriminate]. destruct (json_tail r) eqn:J; [|discriminate]. intros X. injection X as <-.
  cbn [app]. f_equal. apply json_tail_ends, J.
Qed.
