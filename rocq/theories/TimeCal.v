(** Proofs about the calendar. *)
From Verif Require Import GoBase GoBaseFacts IdModel TimeModel TimeSpec.
Open Scope Z_scope.

(** ** Checking a range of integers *)
Fixpoint check_range (P : Z -> bool) (f : nat) (lo : Z) : bool :=
  match f with O => P lo | S g => check_range P g lo && check_range P g (lo + 2 ^ Z.of_nat g) end.
Lemma check_range_spec P f : forall lo, check_range P f lo = true -> forall x, lo <= x < lo + 2 ^ Z.of_nat f -> P x = true.
Proof.
  induction f as [|f IH]; intros lo H x Hx; [cbn in *; replace x with lo by lia; exact H|].
  cbn [check_range] in H. apply andb_true_iff in H as [H1 H2]. replace (Z.of_nat (S f)) with (Z.succ (Z.of_nat f)) in Hx by lia. rewrite Z.pow_succ_r in Hx by lia.
  destruct (Z_lt_dec x (lo + 2 ^ Z.of_nat f)); [apply (IH lo H1); lia|apply (IH _ H2); lia].
Qed.

(** ** Calendar *)
(** Days before year [y], and before a day of a year. *)
Definition ystart (y : Z) : Z := 365 * (y - 1) + (y - 1) / 4 - (y - 1) / 100 + (y - 1) / 400.
Definition yday (leap : bool) (m d : Z) : Z := days_before (m - 1) + (if leap && (3 <=? m) then 1 else 0) + (d - 1).
Definition ylen (leap : bool) : Z := if leap then 366 else 365.
Definition mlen (leap : bool) (m : Z) : Z := if m =? 2 then (if leap then 29 else 28) else if (m =? 4) || (m =? 6) || (m =? 9) || (m =? 11) then 30 else 31.
Lemma month_len_mlen y m : month_len y m = mlen (is_leap y) m.
Proof. reflexivity. Qed.
Lemma days_of_split y m d : days_of y m d = ystart y + yday (is_leap y) m d.
Proof.
  unfold days_of, ystart, yday. cbv zeta.
  assert (E : 146097 * ((y - 1) / 400) + 36524 * ((y - 1 - 400 * ((y - 1) / 400)) / 100) + 1461 * ((y - 1 - 400 * ((y - 1) / 400) - 100 * ((y - 1 - 400 * ((y - 1) / 400)) / 100)) / 4) +
    365 * (y - 1 - 400 * ((y - 1) / 400) - 100 * ((y - 1 - 400 * ((y - 1) / 400)) / 100) - 4 * ((y - 1 - 400 * ((y - 1) / 400) - 100 * ((y - 1 - 400 * ((y - 1) / 400)) / 100)) / 4)) =
    365 * (y - 1) + (y - 1) / 4 - (y - 1) / 100 + (y - 1) / 400).
  { set (x := y - 1). Z.div_mod_to_equations. lia. }
  lia.
Qed.
Lemma ystart_next y : ystart (y + 1) = ystart y + ylen (is_leap y).
Proof.
  unfold ystart, ylen, is_leap. replace (y + 1 - 1) with y by lia.
  destruct (y mod 4 =? 0) eqn:E4; [apply Z.eqb_eq in E4|apply Z.eqb_neq in E4]; cbn [andb];
    [|Z.div_mod_to_equations; lia].
  destruct (y mod 100 =? 0) eqn:E1; [apply Z.eqb_eq in E1|apply Z.eqb_neq in E1]; cbn [negb orb]; [|Z.div_mod_to_equations; lia].
  destruct (y mod 400 =? 0) eqn:E0; [apply Z.eqb_eq in E0|apply Z.eqb_neq in E0]; Z.div_mod_to_equations; lia.
Qed.
Lemma ylen_pos b : 0 < ylen b. Proof. destruct b; reflexivity. Qed.
Lemma ystart_mono y k : 0 <= k -> ystart y + 365 * k <= ystart (y + k).
Proof.
  intros H. rewrite <- (Z2Nat.id k) by exact H. generalize (Z.to_nat k). clear k H. induction n as [|n IH]; [replace (y + Z.of_nat 0) with y by lia; lia|].
  replace (y + Z.of_nat (S n)) with (y + Z.of_nat n + 1) by lia. rewrite ystart_next. unfold ylen. destruct (is_leap _); lia.
Qed.
(** Days within a year: checked for each of the 366 days. *)
Definition md_ok (b : bool) (yd : Z) : bool :=
  (ylen b <=? yd) || (let '(m, d) := month_day b yd in (1 <=? m) && (m <=? 12) && (1 <=? d) && (d <=? mlen b m) && (yday b m d =? yd)).
Lemma md_check : check_range (md_ok true) 9 0 && check_range (md_ok false) 9 0 = true.
Proof. vm_compute. reflexivity. Qed.
Lemma month_day_ok b yd : 0 <= yd < ylen b -> let '(m, d) := month_day b yd in 1 <= m <= 12 /\ 1 <= d <= mlen b m /\ yday b m d = yd.
Proof.
  intros H. assert (R : 0 <= yd < 0 + 2 ^ Z.of_nat 9) by (change (2 ^ Z.of_nat 9) with 512; destruct b; cbn [ylen] in H; lia).
  assert (C : md_ok b yd = true).
  { destruct b; [exact (check_range_spec (md_ok true) 9 0 (proj1 (andb_prop _ _ md_check)) yd R)|exact (check_range_spec (md_ok false) 9 0 (proj2 (andb_prop _ _ md_check)) yd R)]. }
  unfold md_ok in C. destruct (month_day b yd) as [m d]. apply orb_true_iff in C as [C|C]; [apply Z.leb_le in C; lia|].
  rewrite !andb_true_iff, !Z.leb_le, Z.eqb_eq in C. tauto.
Qed.
Ltac months H := let E := fresh "E" in
  match type of H with 1 <= ?m <= 12 =>
    assert (E : m = 1 \/ m = 2 \/ m = 3 \/ m = 4 \/ m = 5 \/ m = 6 \/ m = 7 \/ m = 8 \/ m = 9 \/ m = 10 \/ m = 11 \/ m = 12) by lia;
    clear H; destruct E as [E|[E|[E|[E|[E|[E|[E|[E|[E|[E|[E|E]]]]]]]]]]]; subst m end.
(** The first day of each month follows the last of the month before. *)
Definition mstart (b : bool) (m : Z) : Z := yday b m 1.
Lemma mstart_next b m : 1 <= m <= 12 -> mstart b (m + 1) = mstart b m + mlen b m.
Proof. intros H. months H; destruct b; reflexivity. Qed.
Lemma mstart_mono b m k : 1 <= m -> 0 <= k -> m + k <= 13 -> mstart b m + 28 * k <= mstart b (m + k).
Proof.
  intros Hm H. rewrite <- (Z2Nat.id k) by exact H. generalize (Z.to_nat k). clear k H. induction n as [|n IH]; intros L; [replace (m + Z.of_nat 0) with m by lia; lia|].
  replace (m + Z.of_nat (S n)) with (m + Z.of_nat n + 1) in * by lia. rewrite mstart_next by lia. specialize (IH ltac:(lia)).
  assert (28 <= mlen b (m + Z.of_nat n)) by (unfold mlen; repeat match goal with |- context [if ?c then _ else _] => destruct c end; lia). lia.
Qed.
Lemma yday_range b m d : 1 <= m <= 12 -> 1 <= d <= mlen b m -> 0 <= yday b m d < ylen b.
Proof.
  intros Hm Hd. replace (yday b m d) with (mstart b m + (d - 1)) by (unfold mstart, yday; lia).
  pose proof (mstart_mono b 1 (m - 1) ltac:(lia) ltac:(lia) ltac:(lia)) as A. pose proof (mstart_mono b (m + 1) (12 - m) ltac:(lia) ltac:(lia) ltac:(lia)) as C.
  replace (1 + (m - 1)) with m in A by lia. replace (m + 1 + (12 - m)) with 13 in C by lia. rewrite mstart_next in C by lia.
  assert (mstart b 1 = 0) by (destruct b; reflexivity). assert (mstart b 13 = ylen b) by (destruct b; reflexivity). lia.
Qed.
Lemma yday_inj b m d m' d' : 1 <= m <= 12 -> 1 <= d <= mlen b m -> 1 <= m' <= 12 -> 1 <= d' <= mlen b m' -> yday b m d = yday b m' d' -> m = m' /\ d = d'.
Proof.
  assert (W : forall m d m' d', 1 <= m <= 12 -> 1 <= d <= mlen b m -> 1 <= m' <= 12 -> 1 <= d' <= mlen b m' -> yday b m d = yday b m' d' -> ~ m < m').
  { intros m1 d1 m2 d2 Hm Hd Hm' Hd' E L. pose proof (mstart_mono b (m1 + 1) (m2 - (m1 + 1)) ltac:(lia) ltac:(lia) ltac:(lia)) as A.
    replace (m1 + 1 + (m2 - (m1 + 1))) with m2 in A by lia. rewrite mstart_next in A by lia. unfold mstart, yday in *. lia. }
  intros Hm Hd Hm' Hd' E. pose proof (W m d m' d' Hm Hd Hm' Hd' E). pose proof (W m' d' m d Hm' Hd' Hm Hd (eq_sym E)).
  assert (m = m') by lia. subst m'. split; [reflexivity|]. unfold yday in E. lia.
Qed.
(** Splitting a day number into year and day of the year. *)
Lemma civil_year d : exists y yd, 0 <= yd < ylen (is_leap y) /\ d = ystart y + yd /\ civil d = (let '(m, dd) := month_day (is_leap y) yd in (y, m, dd)).
Proof.
  unfold civil. cbv zeta. set (q := d / 146097). set (r := d - 146097 * q). set (c := r / 36524 - r / 36524 / 4). set (r2 := r - 36524 * c). set (b := r2 / 1461).
  set (r3 := r2 - 1461 * b). set (a := r3 / 365 - r3 / 365 / 4). set (yd := r3 - 365 * a). set (y := 400 * q + 100 * c + 4 * b + a + 1).
  exists y, yd. split; [|split; [|reflexivity]].
  - assert (Hr : 0 <= r < 146097) by (unfold r, q; Z.div_mod_to_equations; lia).
    assert (Hc : 0 <= c <= 3 /\ 0 <= r2 /\ r2 <= 36524 /\ (r2 = 36524 -> c = 3)) by (unfold r2, c; clearbody r; Z.div_mod_to_equations; lia).
    assert (Hb : 0 <= b <= 24 /\ 0 <= r3 <= 1460 /\ (b = 24 -> r3 = 1460 -> r2 = 36524)) by (unfold r3, b; clearbody r2; Z.div_mod_to_equations; lia).
    assert (Ha : 0 <= a <= 3 /\ 0 <= yd <= 365 /\ (yd = 365 -> a = 3 /\ r3 = 1460)) by (unfold yd, a; clearbody r3; Z.div_mod_to_equations; lia).
    clearbody yd a r3 b r2 c r. split; [lia|]. destruct (Z.eq_dec yd 365) as [Ey|]; [|unfold ylen; destruct (is_leap y); lia].
    assert (A3 : a = 3 /\ r3 = 1460) by (apply Ha; exact Ey). destruct A3 as [A3 R3].
    assert (L : is_leap y = true); [|rewrite L; cbn [ylen]; lia].
    unfold is_leap. apply andb_true_iff. split; [apply Z.eqb_eq; unfold y; Z.div_mod_to_equations; lia|]. apply orb_true_iff.
    destruct (Z.eq_dec b 24) as [B24|B24].
    + right. apply Z.eqb_eq. assert (c = 3) by (apply Hc, Hb; assumption). unfold y. Z.div_mod_to_equations. lia.
    + left. apply negb_true_iff, Z.eqb_neq. unfold y. Z.div_mod_to_equations. lia.
  - assert (Hr : 0 <= r < 146097) by (unfold r, q; Z.div_mod_to_equations; lia).
    assert (Hc : 0 <= c <= 3 /\ 0 <= r2 /\ r2 <= 36524) by (unfold r2, c; clearbody r; Z.div_mod_to_equations; lia).
    assert (Hb : 0 <= b <= 24 /\ 0 <= r3 <= 1460) by (unfold r3, b; clearbody r2; Z.div_mod_to_equations; lia).
    assert (Ha : 0 <= a <= 3) by (unfold a; clearbody r3; Z.div_mod_to_equations; lia).
    assert (D : d = 146097 * q + 36524 * c + 1461 * b + 365 * a + yd) by (unfold yd, r3, r2, r; lia).
    clearbody yd a b c q. destruct Hc as [Hc _], Hb as [Hb _]. clear Hr. unfold ystart, y. replace (400 * q + 100 * c + 4 * b + a + 1 - 1) with (400 * q + 100 * c + 4 * b + a) by lia.
    assert (Q4 : (400 * q + 100 * c + 4 * b + a) / 4 = 100 * q + 25 * c + b) by (symmetry; apply Z.div_unique_pos with a; lia).
    assert (Q1 : (400 * q + 100 * c + 4 * b + a) / 100 = 4 * q + c) by (symmetry; apply Z.div_unique_pos with (4 * b + a); lia).
    assert (Q0 : (400 * q + 100 * c + 4 * b + a) / 400 = q) by (symmetry; apply Z.div_unique_pos with (100 * c + 4 * b + a); lia).
    rewrite Q4, Q1, Q0. lia.
Qed.
Lemma civil_valid d : let '(y, m, dd) := civil d in days_of y m dd = d /\ valid_day y m dd.
Proof.
  destruct (civil_year d) as (y & yd & H1 & H2 & ->). pose proof (month_day_ok (is_leap y) yd H1) as M. destruct (month_day (is_leap y) yd) as [m dd]. destruct M as (M1 & M2 & M3).
  split; [rewrite days_of_split, M3; lia|]. split; [exact M1|]. rewrite month_len_mlen. exact M2.
Qed.
(** The other direction: every valid day is a day number. *)
Lemma days_of_inj y m d y' m' d' : valid_day y m d -> valid_day y' m' d' -> days_of y m d = days_of y' m' d' -> (y, m, d) = (y', m', d').
Proof.
  assert (W : forall y m d y' m' d', valid_day y m d -> valid_day y' m' d' -> days_of y m d = days_of y' m' d' -> ~ y < y').
  { intros y1 m1 d1 y2 m2 d2 [Hm Hd] [Hm' Hd'] E L. rewrite !days_of_split in E. rewrite month_len_mlen in Hd, Hd'. pose proof (yday_range _ _ _ Hm Hd). pose proof (yday_range _ _ _ Hm' Hd').
    pose proof (ystart_mono (y1 + 1) (y2 - (y1 + 1)) ltac:(lia)) as A. replace (y1 + 1 + (y2 - (y1 + 1))) with y2 in A by lia. rewrite ystart_next in A. lia. }
  intros V V' E. pose proof (W _ _ _ _ _ _ V V' E). pose proof (W _ _ _ _ _ _ V' V (eq_sym E)). assert (y = y') by lia. subst y'.
  destruct V as [Hm Hd], V' as [Hm' Hd']. rewrite month_len_mlen in Hd, Hd'. rewrite !days_of_split in E. destruct (yday_inj _ _ _ _ _ Hm Hd Hm' Hd' ltac:(lia)) as [-> ->]. reflexivity.
Qed.
Lemma civil_days y m d : valid_day y m d -> civil (days_of y m d) = (y, m, d).
Proof.
  intros V. pose proof (civil_valid (days_of y m d)) as C. destruct (civil (days_of y m d)) as [[y' m'] d']. destruct C as [C1 C2]. apply days_of_inj; assumption.
Qed.
Lemma next_day_days y m d : valid_day y m d -> let '(y', m', d') := next_day (y, m, d) in valid_day y' m' d' /\ days_of y' m' d' = days_of y m d + 1.
Proof.
  intros [Hm Hd]. unfold next_day. destruct (d <? month_len y m) eqn:E; [apply Z.ltb_lt in E|apply Z.ltb_ge in E].
  - split; [split; [exact Hm|lia]|]. rewrite !days_of_split. unfold yday. lia.
  - assert (d = month_len y m) by lia. subst d. clear E. assert (P : forall y m, 1 <= month_len y m) by (intros; unfold month_len; repeat match goal with |- context [if ?c then _ else _] => destruct c end; lia).
    destruct (m <? 12) eqn:E; [apply Z.ltb_lt in E|apply Z.ltb_ge in E].
    + split; [split; [lia|split; [lia|apply P]]|]. rewrite !days_of_split. change (yday (is_leap y) (m + 1) 1) with (mstart (is_leap y) (m + 1)). rewrite mstart_next by lia. rewrite month_len_mlen. unfold mstart, yday. lia.
    + assert (m = 12) by lia. subst m. split; [split; [lia|split; [lia|apply P]]|]. rewrite !days_of_split, ystart_next. change (month_len y 12) with 31.
      assert (F1 : forall b, yday b 1 1 = 0) by (intros []; reflexivity). assert (F2 : forall b, yday b 12 31 + 1 = ylen b) by (intros []; reflexivity).
      rewrite F1, <- F2. lia.
Qed.
Lemma cal_all d : let '(y, m, dd) := civil d in days_of y m dd = d /\ valid_day y m dd /\ civil (d + 1) = next_day (y, m, dd).
Proof.
  pose proof (civil_valid d) as C. destruct (civil d) as [[y m] dd]. destruct C as [C1 C2]. split; [exact C1|]. split; [exact C2|].
  pose proof (next_day_days y m dd C2) as N. destruct (next_day (y, m, dd)) as [[y' m'] d']. destruct N as [N1 N2]. rewrite <- C1, <- N2. apply civil_days. exact N1.
Qed.
Lemma days_in_len m y : 1 <= m <= 12 -> days_in m y = month_len y m.
Proof.
  intros H. unfold days_in, month_len, is_leap. assert (E : m = 1 \/ m = 2 \/ m = 3 \/ m = 4 \/ m = 5 \/ m = 6 \/ m = 7 \/ m = 8 \/ m = 9 \/ m = 10 \/ m = 11 \/ m = 12) by lia.
  destruct E as [E|[E|[E|[E|[E|[E|[E|[E|[E|[E|[E|E]]]]]]]]]]]; subst m; reflexivity.
Qed.
