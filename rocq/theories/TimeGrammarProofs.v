(** The parsers of TimeModel read exactly the texts of TimeGrammar. *)
From Verif Require Import GoBase GoBaseFacts IdModel TimeModel TimeSpec TimeCal TimeProofs TimeGrammar.
Open Scope Z_scope.

Lemma getnum_sound fixed s v r : getnum fixed s = Some (v, r) -> 0 <= v <= 99 /\ (s = two v ++ r \/ fixed = false /\ v < 10 /\ s = digit_char v :: r /\ match r with b :: _ => dec_digit b = None | [] => True end).
Proof.
  unfold getnum. destruct s as [|a s]; [discriminate|]. destruct (dec_digit a) as [x|] eqn:Ea; [|discriminate]. apply dec_digit_range in Ea. destruct Ea as [Rx ->].
  destruct s as [|b s].
  - destruct fixed; [discriminate|]. intros [= <- <-]. split; [lia|]. right. repeat split; lia.
  - destruct (dec_digit b) as [y|] eqn:Eb.
    + intros [= <- <-]. apply dec_digit_range in Eb. destruct Eb as [Ry ->]. split; [lia|]. left. unfold two.
      replace ((x * 10 + y) / 10) with x by (symmetry; rewrite Z.add_comm, Z.div_add, Z.div_small; lia).
      replace ((x * 10 + y) mod 10) with y by (symmetry; rewrite Z.add_comm, Z.mod_add, Z.mod_small; lia). reflexivity.
    + destruct fixed; [discriminate|]. intros [= <- <-]. split; [lia|]. right. repeat split; try lia. exact Eb.
Qed.
Lemma lit_sound c s r : lit c s = Some r -> s = c :: r.
Proof. unfold lit. destruct s as [|d s]; [discriminate|]. destruct (ascii_dec d c) as [->|]; [|discriminate]. intros [= ->]. reflexivity. Qed.
Lemma ranged_sound lo hi x v r : ranged lo hi x = Some (v, r) -> lo <= v <= hi /\ x = Some (v, r).
Proof. unfold ranged. destruct x as [[v' r']|]; [|discriminate]. destruct ((lo <=? v') && (v' <=? hi)) eqn:E; [|discriminate]. intros [= <- <-]. split; [lia|reflexivity]. Qed.
Lemma fixed_sound s v r : getnum true s = Some (v, r) -> 0 <= v <= 99 /\ s = two v ++ r.
Proof. intros H. destruct (getnum_sound _ _ _ _ H) as [R [E|(C & _)]]; [auto|discriminate]. Qed.

Lemma gregorian_iff n y m d : gregorian n (y, m, d) <-> days_of y m d = n /\ valid_day y m d.
Proof.
  split.
  - intros G. pose proof (gregorian_civil _ _ G) as E. pose proof (civil_valid n) as V. rewrite <- E in V. exact V.
  - intros [<- V]. rewrite <- (civil_days y m d V). apply civil_gregorian.
Qed.
Lemma date_sound s n r : get_date s = Some (n, r) -> exists D, date_of D n /\ s = D ++ r.
Proof.
  unfold get_date. destruct (get_year s) as [[y s1]|] eqn:Ey; [|discriminate]. destruct (lit _ s1) as [s2|] eqn:E1; [|discriminate].
  destruct (ranged 1 12 (getnum true s2)) as [[m s3]|] eqn:Em; [|discriminate]. destruct (lit _ s3) as [s4|] eqn:E2; [|discriminate].
  destruct (getnum true s4) as [[d s5]|] eqn:Ed; [|discriminate]. destruct ((1 <=? d) && (d <=? days_in m y)) eqn:R; [|discriminate]. intros [= <- <-].
  apply lit_sound in E1, E2. apply ranged_sound in Em. destruct Em as [Rm Em]. apply fixed_sound in Em, Ed. destruct Em as [_ ->], Ed as [_ ->]. subst s1 s3.
  unfold get_year in Ey. destruct (getnum true s) as [[a t]|] eqn:Ea; [|discriminate]. destruct (getnum true t) as [[b u]|] eqn:Eb; [|discriminate]. injection Ey as <- ->.
  apply fixed_sound in Ea, Eb. destruct Ea as [Ra ->], Eb as [Rb ->].
  exists (date_text (a * 100 + b) m d). split.
  - exists (a * 100 + b), m, d. split; [|split; [lia|reflexivity]]. apply gregorian_iff. split; [reflexivity|]. split; [exact Rm|]. rewrite days_in_len in R by exact Rm. lia.
  - unfold date_text. replace ((a * 100 + b) / 100) with a by (symmetry; rewrite Z.add_comm, Z.div_add, Z.div_small; lia).
    replace ((a * 100 + b) mod 100) with b by (symmetry; rewrite Z.add_comm, Z.mod_add, Z.mod_small; lia). rewrite !app_assoc_reverse. reflexivity.
Qed.
Lemma date_complete D n r : date_of D n -> get_date (D ++ r) = Some (n, r).
Proof. intros (y & m & d & G & Ry & ->). apply gregorian_iff in G. destruct G as [<- V]. apply get_date_text; assumption. Qed.
Lemma clock_sound s c r : get_clock s = Some (c, r) -> exists C, clock_of C c /\ s = C ++ r.
Proof.
  unfold get_clock. destruct (ranged 0 23 (getnum false s)) as [[h s1]|] eqn:Eh; [|discriminate]. destruct (lit _ s1) as [s2|] eqn:E1; [|discriminate].
  destruct (ranged 0 59 (getnum true s2)) as [[mi s3]|] eqn:Em; [|discriminate]. destruct (lit _ s3) as [s4|] eqn:E2; [|discriminate].
  destruct (ranged 0 59 (getnum true s4)) as [[se s5]|] eqn:Es; [|discriminate]. intros [= <- <-].
  apply lit_sound in E1, E2. apply ranged_sound in Eh, Em, Es. destruct Eh as [Rh Eh], Em as [Rm Em], Es as [Rs Es]. apply fixed_sound in Em, Es. destruct Em as [_ ->], Es as [_ ->]. subst s1 s3.
  apply getnum_sound in Eh. destruct Eh as [_ [->|(_ & Lh & -> & _)]].
  - exists (two h ++ B ":" ++ two mi ++ B ":" ++ two se). split; [|rewrite !app_assoc_reverse; reflexivity].
    exists (two h), h, mi, se. split; [split; [exact Rh|left; reflexivity]|]. auto.
  - exists ([digit_char h] ++ B ":" ++ two mi ++ B ":" ++ two se). split; [|rewrite !app_assoc_reverse; reflexivity].
    exists [digit_char h], h, mi, se. split; [split; [exact Rh|right; split; [exact Lh|reflexivity]]|]. auto.
Qed.
Lemma clock_complete C c r : clock_of C c -> get_clock (C ++ r) = Some (c, r).
Proof.
  intros (hs & h & mi & se & [Rh Hh] & Rm & Rs & -> & ->). unfold get_clock.
  assert (E : getnum false ((hs ++ B ":" ++ two mi ++ B ":" ++ two se) ++ r) = Some (h, B ":" ++ two mi ++ B ":" ++ two se ++ r)).
  { rewrite !app_assoc_reverse. destruct Hh as [->|[L ->]]; [apply getnum_two; lia|]. unfold getnum. cbn [app]. rewrite dec_digit_char by lia. reflexivity. }
  rewrite E, ranged_in by lia. rewrite lit_colon, getnum_two, ranged_in by lia. rewrite lit_colon, getnum_two, ranged_in by lia. reflexivity.
Qed.

(** ** Fractions *)
Lemma decimal_acc l : forall acc, decimal l acc = acc * 10 ^ Z.of_nat (length l) + decimal l 0.
Proof.
  induction l as [|d l IH]; intros acc; cbn [decimal length]; [rewrite Z.pow_0_r; lia|]. rewrite IH, (IH (0 * 10 + d)).
  rewrite Nat2Z.inj_succ, Z.pow_succ_r by lia. ring.
Qed.
Lemma decimal_range l : Forall (fun d => 0 <= d <= 9) l -> 0 <= decimal l 0 < 10 ^ Z.of_nat (length l).
Proof.
  induction 1 as [|d l R F IH]; [cbn; lia|]. cbn [decimal length]. rewrite decimal_acc, Nat2Z.inj_succ, Z.pow_succ_r by lia. nia.
Qed.
Lemma nanos_decimal k : forall l, Forall (fun d => 0 <= d <= 9) l -> nanos k l = decimal l 0 * 10 ^ Z.of_nat k / 10 ^ Z.of_nat (length l).
Proof.
  induction k as [|k IH]; intros l F.
  - cbn [nanos]. change (10 ^ Z.of_nat 0) with 1. rewrite Z.mul_1_r. symmetry. apply Z.div_small. apply decimal_range. exact F.
  - destruct F as [|d l R F]; [cbn; reflexivity|]. cbn [nanos decimal length]. rewrite IH by exact F. rewrite (decimal_acc l (0 * 10 + d)).
    set (L := length l). set (x := decimal l 0). rewrite !Nat2Z.inj_succ, !Z.pow_succ_r by lia. clearbody L x.
    assert (P : 0 < 10 ^ Z.of_nat L) by (apply Z.pow_pos_nonneg; lia). assert (Q : 0 < 10 ^ Z.of_nat k) by (apply Z.pow_pos_nonneg; lia).
    set (p := 10 ^ Z.of_nat L) in *. set (q := 10 ^ Z.of_nat k) in *. clearbody p q.
    replace (((0 * 10 + d) * p + x) * (10 * q)) with ((x * q + d * q * p) * 10) by ring. rewrite (Z.mul_comm 10 p). rewrite Z.div_mul_cancel_r by lia.
    rewrite Z.div_add by lia. lia.
Qed.
Lemma take_digits_sound s : forall l t, take_digits s = (l, t) -> Forall (fun d => 0 <= d <= 9) l /\ s = map digit_char l ++ t /\ match t with c :: _ => dec_digit c = None | [] => True end.
Proof.
  induction s as [|c s IH]; intros l t.
  - cbn. intros [= <- <-]. repeat split. constructor.
  - cbn [take_digits]. destruct (dec_digit c) as [d|] eqn:E.
    + destruct (take_digits s) as [l' t'] eqn:E'. intros [= <- <-]. destruct (IH _ _ eq_refl) as (F & -> & T). apply dec_digit_range in E. destruct E as [R ->].
      split; [constructor; [lia|exact F]|]. split; [reflexivity|exact T].
    + intros [= <- <-]. split; [constructor|]. split; [reflexivity|exact E].
Qed.
Lemma take_digits_complete l : Forall (fun d => 0 <= d <= 9) l -> forall t, match t with c :: _ => dec_digit c = None | [] => True end -> take_digits (map digit_char l ++ t) = (l, t).
Proof.
  induction 1 as [|d l R F IH]; intros t T; cbn [map app].
  - destruct t as [|c t]; [reflexivity|]. cbn [take_digits]. rewrite T. reflexivity.
  - cbn [take_digits]. rewrite dec_digit_char by lia. rewrite IH by exact T. reflexivity.
Qed.
Lemma pair_inv {A B} (a c : A) (b d : B) : (a, b) = (c, d) -> a = c /\ b = d. Proof. intros [= -> ->]. auto. Qed.
Lemma frac_sound s ns r : get_frac s = (ns, r) -> exists F, fraction_of F ns /\ s = F ++ r.
Proof.
  unfold get_frac. intros H. assert (Z0 : forall t, (0, t) = (ns, r) -> exists F, fraction_of F ns /\ t = F ++ r).
  { intros t [= <- <-]. exists []. split; [left; auto|reflexivity]. }
  destruct s as [|c s]; [apply Z0; exact H|].
  assert (K : forall p, [c] = p -> (p = B "." \/ p = B ",") -> match take_digits s with ([], _) => (0, c :: s) | (l, t) => (nanos 9 l, t) end = (ns, r) -> exists F, fraction_of F ns /\ c :: s = F ++ r).
  { intros p Ep Hp. destruct (take_digits s) as [l t] eqn:E. apply take_digits_sound in E. destruct E as (Fl & Es & _). destruct l as [|d l]; [apply Z0|].
    intros Q. apply pair_inv in Q. destruct Q as [<- <-]. exists (p ++ map digit_char (d :: l)). split.
    - right. exists p, (d :: l). split; [exact Hp|]. split; [discriminate|]. split; [exact Fl|]. split; [reflexivity|]. apply nanos_decimal. exact Fl.
    - rewrite <- Ep, Es. reflexivity. }
  destruct (ascii_dec c (ascii_of_nat 46)) as [->|]; [apply (K (B ".")); [reflexivity|auto|exact H]|].
  destruct (ascii_dec c (ascii_of_nat 44)) as [->|]; [apply (K (B ",")); [reflexivity|auto|exact H]|]. apply Z0. exact H.
Qed.
Lemma frac_complete F ns : fraction_of F ns -> forall r, match r with c :: _ => dec_digit c = None /\ c <> ascii_of_nat 46 /\ c <> ascii_of_nat 44 | [] => True end -> get_frac (F ++ r) = (ns, r).
Proof.
  intros [[-> ->]|(p & l & Hp & NE & Fl & -> & ->)] r Hr.
  - cbn [app]. unfold get_frac. destruct r as [|c r]; [reflexivity|]. destruct Hr as (_ & N1 & N2). destruct (ascii_dec c _); [contradiction|]. destruct (ascii_dec c _); [contradiction|]. reflexivity.
  - assert (T : take_digits (map digit_char l ++ r) = (l, r)) by (apply take_digits_complete; [exact Fl|destruct r; [exact I|apply Hr]]).
    assert (E : match take_digits (map digit_char l ++ r) with ([], _) => (0, (p ++ map digit_char l) ++ r) | (l', t) => (nanos 9 l', t) end = (decimal l 0 * 10 ^ 9 / 10 ^ Z.of_nat (length l), r)).
    { rewrite T. destruct l as [|d l]; [congruence|]. rewrite nanos_decimal by exact Fl. reflexivity. }
    rewrite <- E, app_assoc_reverse. clear E T. destruct Hp as [->| ->]; reflexivity.
Qed.

(** ** Zones *)
Lemma zone_sound s z r : get_zone s = Some (z, r) -> exists Z, zone_of Z z /\ s = Z ++ r.
Proof.
  unfold get_zone. destruct s as [|c s]; [discriminate|]. destruct (ascii_dec c (ascii_of_nat 90)) as [->|].
  - intros [= <- <-]. exists (B "Z"). split; [left; auto|reflexivity].
  - destruct (ranged 0 24 (getnum true s)) as [[h s1]|] eqn:Eh; [|discriminate]. destruct (lit _ s1) as [s2|] eqn:E1; [|discriminate].
    destruct (ranged 0 60 (getnum true s2)) as [[m s3]|] eqn:Em; [|discriminate].
    apply lit_sound in E1. apply ranged_sound in Eh, Em. destruct Eh as [Rh Eh], Em as [Rm Em]. apply fixed_sound in Eh, Em. destruct Eh as [_ ->], Em as [_ ->]. subst s1.
    destruct (ascii_dec c (ascii_of_nat 43)) as [->|].
    { intros [= <- <-]. exists (B "+" ++ two h ++ B ":" ++ two m). split; [|rewrite !app_assoc_reverse; reflexivity]. right. exists h, m. auto. }
    destruct (ascii_dec c (ascii_of_nat 45)) as [->|]; [|discriminate].
    intros [= <- <-]. exists (B "-" ++ two h ++ B ":" ++ two m). split; [|rewrite !app_assoc_reverse; reflexivity]. right. exists h, m. auto.
Qed.
Lemma zone_complete Z z r : zone_of Z z -> get_zone (Z ++ r) = Some (z, r).
Proof.
  assert (K : forall h m c, 0 <= h <= 24 -> 0 <= m <= 60 -> c <> ascii_of_nat 90 ->
    get_zone ((c :: two h ++ B ":" ++ two m) ++ r) = if ascii_dec c (ascii_of_nat 43) then Some ((h * 60 + m) * 60, r) else if ascii_dec c (ascii_of_nat 45) then Some (- ((h * 60 + m) * 60), r) else None).
  { intros h m c Rh Rm N. cbn [app]. unfold get_zone. destruct (ascii_dec c (ascii_of_nat 90)); [contradiction|]. rewrite !app_assoc_reverse.
    rewrite getnum_two, ranged_in, lit_colon, getnum_two, ranged_in by lia. reflexivity. }
  intros [[-> ->]|(h & m & Rh & Rm & [[-> ->]|[-> ->]])]; [reflexivity| |].
  - exact (K h m (ascii_of_nat 43) Rh Rm ltac:(discriminate)).
  - exact (K h m (ascii_of_nat 45) Rh Rm ltac:(discriminate)).
Qed.
Lemma zone_head Z z : zone_of Z z -> exists c t, Z = c :: t /\ dec_digit c = None /\ c <> ascii_of_nat 46 /\ c <> ascii_of_nat 44.
Proof.
  intros [[-> _]|(h & m & _ & _ & [[-> _]|[-> _]])]; eexists; eexists; split; try reflexivity; repeat split; discriminate.
Qed.

(** ** Whole texts *)
Theorem rfc3339_iff s t : parse_rfc3339 s = Some t <-> rfc3339 s t.
Proof.
  unfold parse_rfc3339, finished. split.
  - destruct (get_date s) as [[n s1]|] eqn:Ed; [|discriminate]. destruct (lit _ s1) as [s2|] eqn:E1; [|discriminate]. destruct (get_clock s2) as [[c s3]|] eqn:Ec; [|discriminate].
    destruct (get_frac s3) as [ns s4] eqn:Ef. destruct (get_zone s4) as [[z s5]|] eqn:Ez; [|discriminate]. destruct s5; [|discriminate]. intros [= <-].
    apply date_sound in Ed. apply lit_sound in E1. apply clock_sound in Ec. apply frac_sound in Ef. apply zone_sound in Ez.
    destruct Ed as (D & HD & ->), Ec as (C & HC & ->), Ef as (F & HF & ->), Ez as (Z & HZ & ->). subst s1. rewrite app_nil_r.
    exists D, n, C, c, F, ns, Z, z. repeat (split; [assumption|]). split; reflexivity.
  - intros (D & n & C & c & F & ns & Z & z & HD & HC & HF & HZ & -> & ->). rewrite (date_complete D n _ HD), lit_T, (clock_complete C c _ HC).
    rewrite (frac_complete F ns HF) by (destruct (zone_head Z z HZ) as (c' & t' & -> & H); exact H). rewrite <- (app_nil_r Z), (zone_complete Z z [] HZ). reflexivity.
Qed.
Lemma clock_head C c : clock_of C c -> exists d t, C = digit_char d :: t /\ 0 <= d < 10.
Proof.
  intros (hs & h & mi & se & [Rh [->|[L ->]]] & _ & _ & -> & _).
  - eexists. eexists. split; [reflexivity|]. split; [apply Z.div_pos; lia|]. apply Z.div_lt_upper_bound; lia.
  - eexists. eexists. split; [reflexivity|]. lia.
Qed.
Lemma skip_sound s r : skip_blank s = Some r -> s = [] /\ r = [] \/ exists k, s = repeat (ascii_of_nat 32) (S k) ++ r.
Proof.
  unfold skip_blank. destruct s as [|c s]; [intros [= <-]; auto|]. destruct (ascii_dec c (ascii_of_nat 32)) as [->|]; [|discriminate]. intros [= <-]. right.
  assert (K : forall s, exists k, s = repeat (ascii_of_nat 32) k ++ trim_left [ascii_of_nat 32] s).
  { clear s. induction s as [|c s [k IH]]; [exists O; reflexivity|]. cbn [trim_left]. destruct (in_set [ascii_of_nat 32] c) eqn:E.
    - unfold in_set in E. cbn [existsb] in E. destruct (ascii_dec _ _) as [e|] in E; [|discriminate]. exists (S k). cbn [repeat app]. rewrite <- IH. congruence.
    - exists O. reflexivity. }
  destruct (K s) as [k E]. exists k. cbn [repeat app]. f_equal. rewrite E at 1. reflexivity.
Qed.
Lemma skip_complete k d t : 0 <= d < 10 -> skip_blank (repeat (ascii_of_nat 32) (S k) ++ digit_char d :: t) = Some (digit_char d :: t).
Proof.
  intros R. unfold skip_blank. cbn [repeat app]. destruct (ascii_dec (ascii_of_nat 32) (ascii_of_nat 32)); [|congruence]. f_equal.
  assert (N : digit_char d <> ascii_of_nat 32). { intros E. pose proof (dec_digit_char d R) as H. rewrite E in H. discriminate. }
  assert (K : forall n, trim_left [ascii_of_nat 32] (repeat (ascii_of_nat 32) n ++ digit_char d :: t) = digit_char d :: t).
  { induction n as [|n IH]; cbn [repeat app].
    - unfold trim_left, in_set. destruct (existsb _ _) eqn:E; [|reflexivity]. exfalso. cbn [existsb] in E. destruct (ascii_dec _ _) in E; [congruence|discriminate].
    - cbn [trim_left]. exact IH. }
  exact (K (S k)).
Qed.
Theorem date_time_iff s t : parse_datetime s = Some t <-> date_time s t.
Proof.
  unfold parse_datetime, finished. split.
  - destruct (get_date s) as [[n s1]|] eqn:Ed; [|discriminate]. destruct (skip_blank s1) as [s2|] eqn:E1; [|discriminate]. destruct (get_clock s2) as [[c s3]|] eqn:Ec; [|discriminate].
    destruct (get_frac s3) as [ns s4] eqn:Ef. destruct s4; [|discriminate]. intros [= <-].
    apply date_sound in Ed. apply clock_sound in Ec. apply frac_sound in Ef. destruct Ed as (D & HD & ->), Ec as (C & HC & ->), Ef as (F & HF & ->). rewrite app_nil_r in E1.
    apply skip_sound in E1. destruct E1 as [[_ E]|[k ->]].
    + destruct (clock_head C c HC) as (d & x & -> & _). discriminate.
    + exists D, n, k, C, c, F, ns. repeat (split; [assumption|]). split; reflexivity.
  - intros (D & n & k & C & c & F & ns & HD & HC & HF & -> & ->). rewrite (date_complete D n _ HD).
    assert (E : skip_blank (repeat (ascii_of_nat 32) (S k) ++ C ++ F) = Some (C ++ F)).
    { destruct (clock_head C c HC) as (d & x & -> & R). apply skip_complete. exact R. }
    rewrite E, (clock_complete C c _ HC). rewrite <- (app_nil_r F), (frac_complete F ns HF) by exact I. reflexivity.
Qed.
Theorem date_only_iff s t : parse_dateonly s = Some t <-> date_only s t.
Proof.
  unfold parse_dateonly, finished. split.
  - destruct (get_date s) as [[n s1]|] eqn:Ed; [|discriminate]. destruct s1; [|discriminate]. intros [= <-]. apply date_sound in Ed. destruct Ed as (D & HD & ->). rewrite app_nil_r. exists n. auto.
  - intros (n & HD & ->). rewrite <- (app_nil_r s), (date_complete s n _ HD). reflexivity.
Qed.
