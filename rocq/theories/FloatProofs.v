(** Proofs about the Float model. *)
From Verif Require Import GoBase GoBaseFacts IdModel IdSpec IdProofs FloatModel FloatSpec.
Open Scope Z_scope.
Local Opaque Z.pow Z.mul Z.add Z.sub Z.log2.

(** ** round_even *)
Lemma re_char num den m : 0 < den -> round_even num den = m <->
  2 * Z.abs (num - m * den) <= den /\ (2 * Z.abs (num - m * den) = den -> Z.even m = true).
Proof.
  intros H. unfold round_even. pose proof (Z.div_mod num den ltac:(lia)) as D. pose proof (Z.mod_pos_bound num den H) as M.
  set (q := num / den) in *. set (r := num mod den) in *. clearbody q r.
  assert (X : forall m, num - m * den = (q - m) * den + r) by (intros; nia). rewrite X.
  assert (U : 2 * Z.abs ((q - m) * den + r) <= den -> m = q \/ m = q + 1).
  { intros U. assert (q - m > -2) by nia. assert (q - m < 1) by nia. lia. }
  destruct (2 * r <? den) eqn:E1; [apply Z.ltb_lt in E1|apply Z.ltb_ge in E1; destruct (den <? 2 * r) eqn:E2; [apply Z.ltb_lt in E2|apply Z.ltb_ge in E2]].
  - split; [intros <-; split; intros; [|exfalso]; replace ((q - q) * den) with 0 in * by ring; lia|].
    intros [A _]. destruct (U A) as [->| ->]; [reflexivity|]. replace ((q - (q + 1)) * den + r) with (r - den) in A by ring. lia.
  - split; [intros <-; replace ((q - (q + 1)) * den + r) with (r - den) by ring; split; intros; [|exfalso]; lia|].
    intros [A _]. destruct (U A) as [->| ->]; [|reflexivity]. replace ((q - q) * den) with 0 in * by ring. lia.
  - destruct (Z.even q) eqn:Ev.
    + split; [intros <-; replace ((q - q) * den) with 0 by ring; split; [lia|intros; exact Ev]|].
      intros [A B]. destruct (U A) as [->| ->]; [reflexivity|]. replace ((q - (q + 1)) * den + r) with (r - den) in * by ring.
      specialize (B ltac:(lia)). rewrite Z.even_add, Ev in B. discriminate B.
    + split; [intros <-; replace ((q - (q + 1)) * den + r) with (r - den) by ring; split; [lia|intros; rewrite Z.even_add, Ev; reflexivity]|].
      intros [A B]. destruct (U A) as [->| ->]; [|reflexivity]. replace ((q - q) * den) with 0 in * by ring. specialize (B ltac:(lia)). congruence.
Qed.
Lemma re_near num den : 0 < den -> 2 * Z.abs (num - round_even num den * den) <= den.
Proof. intros H. exact (proj1 (proj1 (re_char num den _ H) eq_refl)). Qed.
Lemma re_tie num den : 0 < den -> 2 * Z.abs (num - round_even num den * den) = den -> Z.even (round_even num den) = true.
Proof. intros H. exact (proj2 (proj1 (re_char num den _ H) eq_refl)). Qed.
Lemma re_exact q den : 0 < den -> round_even (q * den) den = q.
Proof. intros H. apply re_char; [exact H|]. replace (q * den - q * den) with 0 by ring. cbn. lia. Qed.
Lemma re_nonneg num den : 0 < den -> 0 <= num -> 0 <= round_even num den.
Proof. intros H N. pose proof (re_near num den H). nia. Qed.
Lemma re_best num den m : 0 < den -> Z.abs (num - round_even num den * den) <= Z.abs (num - m * den).
Proof.
  intros H. pose proof (re_near num den H) as N. set (r := round_even num den) in *. destruct (Z.eq_dec r m) as [->|Ne]; [lia|].
  assert (den <= Z.abs (r * den - m * den)). { replace (r * den - m * den) with ((r - m) * den) by ring. rewrite Z.abs_mul. nia. } lia.
Qed.
Lemma re_mono a b den : 0 < den -> a <= b -> round_even a den <= round_even b den.
Proof.
  intros H L. pose proof (re_near a den H) as A. pose proof (re_near b den H) as Bn.
  pose proof (re_tie a den H) as TA. pose proof (re_tie b den H) as TB. set (x := round_even a den) in *. set (y := round_even b den) in *.
  destruct (Z_le_gt_dec x y) as [G|G]; [exact G|]. exfalso. assert (x * den - y * den >= den) by nia.
  assert (a = b /\ 2 * Z.abs (a - x * den) = den /\ 2 * Z.abs (b - y * den) = den) as (-> & T1 & T2) by lia.
  subst x y. lia.
Qed.

(** ** Magnitudes *)
(** A magnitude is representable, whatever its exponent. *)
Definition fl (F : Z) : Prop := 0 <= F /\ exists m, F = m * 2 ^ ulp_exp F.
Lemma ulp_nonneg F : 0 <= ulp_exp F. Proof. unfold ulp_exp. lia. Qed.
Lemma pow2_pos k : 0 <= k -> 0 < 2 ^ k. Proof. intros. apply Z.pow_pos_nonneg; lia. Qed.
Lemma pow2_add a b : 0 <= a -> 0 <= b -> 2 ^ (a + b) = 2 ^ a * 2 ^ b. Proof. intros. apply Z.pow_add_r; lia. Qed.
(** The range of a magnitude with a given last place. *)
Lemma ulp_range F k : 0 <= F -> 0 <= k -> ulp_exp F = k <-> (k = 0 \/ 2 ^ (52 + k) <= F) /\ F < 2 ^ (53 + k).
Proof.
  intros HF Hk. unfold ulp_exp. destruct (Z.eq_dec F 0) as [->|N].
  - change (Z.log2 0) with 0. pose proof (pow2_pos (52 + k) ltac:(lia)). pose proof (pow2_pos (53 + k) ltac:(lia)). lia.
  - pose proof (Z.log2_spec F ltac:(lia)) as [L1 L2]. pose proof (Z.log2_nonneg F) as L0. set (l := Z.log2 F) in *. clearbody l. split.
    + intros <-. destruct (Z_le_gt_dec l 52) as [C|C].
      * rewrite Z.max_l by lia. split; [left; reflexivity|]. apply Z.lt_le_trans with (1 := L2). apply Z.pow_le_mono_r; lia.
      * rewrite Z.max_r by lia. replace (52 + (l - 52)) with l by lia. replace (53 + (l - 52)) with (Z.succ l) by lia. split; [right|]; assumption.
    + intros [A B]. assert (l < 53 + k). { destruct (Z_lt_le_dec l (53 + k)) as [C|C]; [exact C|]. pose proof (Z.pow_le_mono_r 2 (53 + k) l). lia. }
      destruct A as [->|A]; [lia|]. assert (52 + k <= l). { destruct (Z_lt_le_dec l (52 + k)) as [C|C]; [|exact C]. pose proof (Z.pow_le_mono_r 2 (Z.succ l) (52 + k)). lia. } lia.
Qed.
Lemma ulp_mono F G : 0 <= F <= G -> ulp_exp F <= ulp_exp G.
Proof. intros H. unfold ulp_exp. pose proof (Z.log2_le_mono F G ltac:(lia)). lia. Qed.
Lemma fl_mult F k : 0 <= k <= ulp_exp F -> fl F -> exists m, F = m * 2 ^ k.
Proof.
  intros H [F0 [m E]]. exists (m * 2 ^ (ulp_exp F - k)). rewrite E at 1. rewrite <- Z.mul_assoc, <- pow2_add by lia. do 2 f_equal. lia.
Qed.
Lemma fl_of m k : 0 <= k -> 0 <= m <= 2 ^ 53 -> fl (m * 2 ^ k).
Proof.
  intros Hk Hm. pose proof (pow2_pos k Hk) as P. assert (P53 : 2 ^ (53 + k) = 2 ^ 53 * 2 ^ k) by (apply pow2_add; lia). split; [nia|].
  destruct (Z.eq_dec m (2 ^ 53)) as [->|Ne].
  - exists (2 ^ 52). assert (E : ulp_exp (2 ^ 53 * 2 ^ k) = k + 1).
    { apply ulp_range; [nia|lia|]. rewrite (pow2_add 52 (k + 1)), (pow2_add 53 (k + 1)), (pow2_add k 1) by lia. change (2 ^ 53) with (2 ^ 52 * 2 ^ 1). change (2 ^ 1) with 2. split; [right|]; nia. }
    rewrite E. rewrite (pow2_add k 1) by lia. change (2 ^ 53) with (2 ^ 52 * 2 ^ 1). ring.
  - set (F := m * 2 ^ k) in *. assert (ulp_exp F <= k).
    { assert (L : F < 2 ^ (53 + k)) by (rewrite P53; unfold F; nia). unfold ulp_exp. destruct (Z.eq_dec F 0) as [->|N0]; [change (Z.log2 0) with 0; lia|].
      pose proof (proj1 (Z.log2_lt_pow2 F (53 + k) ltac:(nia)) L). lia. }
    exists (m * 2 ^ (k - ulp_exp F)). rewrite <- Z.mul_assoc, <- pow2_add by (pose proof (ulp_nonneg F); lia). unfold F at 1. do 2 f_equal. lia.
Qed.
(** ** Rounding a magnitude *)
Lemma div_range p q a : 0 < q -> 0 <= a -> (a <= p / q <-> q * a <= p) /\ (p / q < a <-> p < q * a).
Proof.
  intros Q A. split; split; intros H.
  - pose proof (Z.mul_div_le p q Q). nia.
  - apply Z.div_le_lower_bound; lia.
  - destruct (Z_lt_le_dec p (q * a)) as [L|L]; [exact L|]. apply Z.div_le_lower_bound in L; lia.
  - apply Z.div_lt_upper_bound; lia.
Qed.
Lemma pq_range p q : 0 < q -> 0 <= p -> let k := ulp_exp (p / q) in
  (k = 0 \/ q * 2 ^ (52 + k) <= p) /\ p < q * 2 ^ (53 + k).
Proof.
  intros Q P k. assert (D : 0 <= p / q) by (apply Z.div_pos; lia). pose proof (ulp_nonneg (p / q)) as K. fold k in K.
  pose proof (proj1 (ulp_range (p / q) k D K) eq_refl) as [A B]. split.
  - destruct A as [A|A]; [left; exact A|right]. apply (proj1 (div_range p q (2 ^ (52 + k)) Q ltac:(pose proof (pow2_pos (52 + k)); lia))), A.
  - apply (proj2 (div_range p q (2 ^ (53 + k)) Q ltac:(pose proof (pow2_pos (53 + k)); lia))), B.
Qed.
Lemma round_m_range p q : 0 < q -> 0 <= p -> let k := ulp_exp (p / q) in
  0 <= round_even p (q * 2 ^ k) <= 2 ^ 53 /\ (k = 0 \/ 2 ^ 52 <= round_even p (q * 2 ^ k)).
Proof.
  intros Q P k. pose proof (pq_range p q Q P) as [A B]. fold k in A, B. pose proof (ulp_nonneg (p / q)) as K. fold k in K.
  pose proof (pow2_pos k K) as PK. assert (Dn : 0 < q * 2 ^ k) by nia.
  rewrite (pow2_add 53 k) in B by lia. rewrite (pow2_add 52 k) in A by lia. split; [split|].
  - apply re_nonneg; lia.
  - rewrite <- (re_exact (2 ^ 53) (q * 2 ^ k) Dn). apply re_mono; [exact Dn|]. nia.
  - destruct A as [A|A]; [left; exact A|right]. rewrite <- (re_exact (2 ^ 52) (q * 2 ^ k) Dn). apply re_mono; [exact Dn|]. nia.
Qed.
Lemma round_mag_fl p q : 0 < q -> 0 <= p -> fl (round_mag p q).
Proof. intros Q P. unfold round_mag. cbv zeta. apply fl_of; [apply ulp_nonneg|]. exact (proj1 (round_m_range p q Q P)). Qed.
Lemma round_mag_exact q F : 0 < q -> fl F -> round_mag (q * F) q = F.
Proof.
  intros Q [F0 [m E]]. unfold round_mag. cbv zeta. rewrite (Z.mul_comm q F), Z.div_mul by lia. pose proof (pow2_pos _ (ulp_nonneg F)).
  rewrite E at 1. replace (m * 2 ^ ulp_exp F * q) with (m * (q * 2 ^ ulp_exp F)) by ring. rewrite re_exact by nia. symmetry. exact E.
Qed.
(** No representable magnitude is nearer. *)
Lemma round_mag_best p q G : 0 < q -> 0 <= p -> fl G -> Z.abs (p - q * round_mag p q) <= Z.abs (p - q * G).
Proof.
  intros Q P HG. unfold round_mag. cbv zeta. set (k := ulp_exp (p / q)). pose proof (ulp_nonneg (p / q)) as K. fold k in K.
  pose proof (pow2_pos k K) as PK. assert (Dn : 0 < q * 2 ^ k) by nia. pose proof (pq_range p q Q P) as [A B]. fold k in A, B.
  assert (X : forall m, q * (m * 2 ^ k) = m * (q * 2 ^ k)) by (intros; ring). rewrite X.
  destruct (Z_le_gt_dec k (ulp_exp G)) as [C|C].
  - destruct (fl_mult G k ltac:(lia) HG) as [m ->]. rewrite X. apply re_best; exact Dn.
  - assert (L : G < 2 ^ (52 + k)). { destruct (Z_lt_le_dec G (2 ^ (52 + k))) as [L|L]; [exact L|]. exfalso. assert (k <= ulp_exp G); [|lia].
      pose proof (ulp_mono (2 ^ (52 + k)) G ltac:(pose proof (pow2_pos (52 + k)); lia)) as M. assert (E : ulp_exp (2 ^ (52 + k)) = k).
      { apply ulp_range; [pose proof (pow2_pos (52 + k)); lia|lia|]. split; [right; lia|]. apply Z.pow_lt_mono_r; lia. } lia. }
    destruct A as [A|A]; [pose proof (ulp_nonneg G); lia|]. pose proof (re_best p (q * 2 ^ k) (2 ^ 52) Dn) as R. rewrite (pow2_add 52 k) in A, L by lia. nia.
Qed.
(** The parity of the last place. *)
Definition mant (F : Z) : Z := F / 2 ^ ulp_exp F.
Lemma fl_mant F : fl F -> F = mant F * 2 ^ ulp_exp F.
Proof. intros [F0 [m E]]. unfold mant. rewrite E at 2. pose proof (pow2_pos _ (ulp_nonneg F)). rewrite Z.div_mul by lia. exact E. Qed.
(** A nearest magnitude within half of its own last place; even in a tie. *)
Lemma round_mag_half p q : 0 < q -> 0 <= p -> let F := round_mag p q in
  2 * Z.abs (p - q * F) <= q * 2 ^ ulp_exp F /\ (2 * Z.abs (p - q * F) = q * 2 ^ ulp_exp F -> Z.even (mant F) = true).
Proof.
  intros Q P F. pose proof (round_mag_fl p q Q P) as HF. fold F in HF. pose proof (round_m_range p q Q P) as [M1 M2].
  unfold F, round_mag in HF |- *. cbv zeta in *. set (k := ulp_exp (p / q)) in *. pose proof (ulp_nonneg (p / q)) as K. fold k in K.
  pose proof (pow2_pos k K) as PK. assert (Dn : 0 < q * 2 ^ k) by nia. pose proof (re_near p (q * 2 ^ k) Dn) as N. pose proof (re_tie p (q * 2 ^ k) Dn) as T.
  set (m := round_even p (q * 2 ^ k)) in *. replace (q * (m * 2 ^ k)) with (m * (q * 2 ^ k)) by ring.
  destruct (Z.eq_dec m (2 ^ 53)) as [E53|N53].
  - assert (E : ulp_exp (m * 2 ^ k) = k + 1).
    { apply ulp_range; [nia|lia|]. rewrite (pow2_add 52 (k + 1)), (pow2_add 53 (k + 1)), (pow2_add k 1) by lia. rewrite E53. change (2 ^ 53) with (2 ^ 52 * 2 ^ 1). change (2 ^ 1) with 2. split; [right|]; nia. }
    rewrite E. unfold mant. rewrite E. rewrite (pow2_add k 1) by lia. change (2 ^ 1) with 2. split; [nia|]. intros _. rewrite E53. change (2 ^ 53) with (2 ^ 52 * 2).
    replace (2 ^ 52 * 2 * 2 ^ k) with (2 ^ 52 * (2 ^ k * 2)) by ring. rewrite Z.div_mul by nia. reflexivity.
  - assert (E : ulp_exp (m * 2 ^ k) = k).
    { apply ulp_range; [nia|lia|]. rewrite (pow2_add 52 k), (pow2_add 53 k) by lia. split; [destruct M2; [left; assumption|right; nia]|nia]. }
    unfold mant. rewrite E, Z.div_mul by lia. split; assumption.
Qed.
(** Conversely, that determines the rounding; just below a power of two the
    last place is half as large. *)
Lemma round_mag_char p q F : 0 < q -> 0 <= p -> fl F ->
  2 * Z.abs (p - q * F) <= q * 2 ^ ulp_exp F -> (2 * Z.abs (p - q * F) = q * 2 ^ ulp_exp F -> Z.even (mant F) = true) ->
  (F = 2 ^ (52 + ulp_exp F) -> 0 < ulp_exp F -> 4 * (q * F - p) <= q * 2 ^ ulp_exp F) -> round_mag p q = F.
Proof.
  intros Q P HF N T W. pose proof (fl_mant F HF) as EF. set (k := ulp_exp F) in *. set (m := mant F) in *. pose proof (ulp_nonneg F) as K. fold k in K.
  pose proof (pow2_pos k K) as PK. assert (Dn : 0 < q * 2 ^ k) by nia.
  pose proof (proj1 (ulp_range F k (proj1 HF) K) eq_refl) as [R1 R2]. rewrite (pow2_add 53 k) in R2 by lia. rewrite (pow2_add 52 k) in R1, W by lia.
  assert (Hm : 0 <= m < 2 ^ 53) by nia. assert (Hm' : k = 0 \/ 2 ^ 52 <= m) by (destruct R1; [left; assumption|right; nia]).
  assert (UB : p < q * 2 ^ (53 + k)). { rewrite (pow2_add 53 k) by lia. assert (q * F <= q * (2 ^ 53 - 1) * 2 ^ k) by nia. nia. }
  assert (Dv : 0 <= p / q) by (apply Z.div_pos; lia).
  destruct (Z_le_gt_dec (q * 2 ^ (52 + k)) p) as [C|C].
  - assert (E : ulp_exp (p / q) = k).
    { apply ulp_range; [exact Dv|lia|]. split; [right|]; apply div_range; try lia; apply Z.pow_nonneg; lia. }
    unfold round_mag. cbv zeta. rewrite E. assert (round_even p (q * 2 ^ k) = m) as ->; [|symmetry; exact EF]. apply re_char; [exact Dn|].
    replace (m * (q * 2 ^ k)) with (q * F) by (rewrite EF; ring). split; assumption.
  - destruct (Z.eq_dec k 0) as [K0|K0].
    + assert (E : ulp_exp (p / q) = k).
      { apply ulp_range; [exact Dv|lia|]. split; [left; exact K0|]; apply div_range; try lia; apply Z.pow_nonneg; lia. }
      unfold round_mag. cbv zeta. rewrite E. assert (round_even p (q * 2 ^ k) = m) as ->; [|symmetry; exact EF]. apply re_char; [exact Dn|].
      replace (m * (q * 2 ^ k)) with (q * F) by (rewrite EF; ring). split; assumption.
    + destruct Hm' as [?|Hm']; [lia|]. rewrite (pow2_add 52 k) in C by lia. assert (M : m = 2 ^ 52).
      { destruct (Z.eq_dec m (2 ^ 52)) as [X|X]; [exact X|exfalso]. assert (q * (2 ^ 52 + 1) * 2 ^ k <= q * F) by (rewrite EF; nia). nia. }
      specialize (W ltac:(rewrite EF, M; reflexivity) ltac:(lia)).
      assert (PP : 2 ^ k = 2 * 2 ^ (k - 1)) by (replace k with (1 + (k - 1)) at 1 by lia; rewrite pow2_add by lia; reflexivity).
      pose proof (pow2_pos (k - 1) ltac:(lia)) as PK1. rewrite EF, M in *. change (2 ^ 53) with (2 * 2 ^ 52) in *.
      assert (E : ulp_exp (p / q) = k - 1).
      { apply ulp_range; [exact Dv|lia|]. split; [right|]; apply div_range; try lia; try (apply Z.pow_nonneg; lia).
        - rewrite (pow2_add 52 (k - 1)) by lia. assert (1 <= 2 ^ 52) by (apply Z.leb_le; reflexivity). nia.
        - replace (53 + (k - 1)) with (52 + k) by lia. rewrite pow2_add by lia. lia. }
      unfold round_mag. cbv zeta. rewrite E. assert (round_even p (q * 2 ^ (k - 1)) = 2 * 2 ^ 52) as ->; [|rewrite PP; ring]. apply re_char; [nia|].
      replace (2 * 2 ^ 52 * (q * 2 ^ (k - 1))) with (q * (2 ^ 52 * 2 ^ k)) by (rewrite PP; ring). split; [|reflexivity].
      assert (Z.abs (p - q * (2 ^ 52 * 2 ^ k)) = q * (2 ^ 52 * 2 ^ k) - p) by nia. nia.
Qed.

(** ** Bit patterns *)
Lemma exp_neg a : 0 <= a < 2 ^ 63 -> exponent (2 ^ 63 + a) = exponent a /\ fraction (2 ^ 63 + a) = fraction a.
Proof.
  intros H. unfold exponent, fraction. replace (2 ^ 63 + a) with (a + 2 ^ 11 * 2 ^ 52) by (change (2 ^ 63) with (2 ^ 11 * 2 ^ 52); ring).
  split; [|rewrite Z.mod_add by (apply Z.pow_nonzero; lia); reflexivity].
  rewrite Z.div_add by (apply Z.pow_nonzero; lia). rewrite <- (Z.mul_1_l (2 ^ 11)) at 1. rewrite Z.mod_add by (apply Z.pow_nonzero; lia). reflexivity.
Qed.
Lemma exp_pos a : 0 <= a < 2 ^ 63 -> exponent a = a / 2 ^ 52.
Proof. intros H. unfold exponent. apply Z.mod_small. split; [apply Z.div_pos; lia|]. apply Z.div_lt_upper_bound; [lia|]. exact (proj2 H). Qed.
Lemma f_abs_sign neg a : 0 <= a < 2 ^ 63 -> f_abs (with_sign neg a) = a /\ f_neg (with_sign neg a) = neg /\ (2 ^ 63 <=? with_sign neg a) = neg.
Proof.
  intros H. unfold f_abs, f_neg, with_sign. destruct neg.
  - split; [replace (2 ^ 63 + a) with (a + 1 * 2 ^ 63) by ring; rewrite Z.mod_add by lia; apply Z.mod_small, H|]. split; apply Z.leb_le; lia.
  - split; [apply Z.mod_small, H|]. split; apply Z.leb_gt; lia.
Qed.
Lemma pattern_split b : pattern b -> 0 <= f_abs b < 2 ^ 63 /\ b = with_sign (f_neg b) (f_abs b).
Proof.
  intros H. unfold pattern in H. change (2 ^ 64) with (2 * 2 ^ 63) in H. unfold f_abs, f_neg, with_sign. pose proof (Z.mod_pos_bound b (2 ^ 63) ltac:(lia)) as M. split; [exact M|].
  destruct (2 ^ 63 <=? b) eqn:E; [apply Z.leb_le in E|apply Z.leb_gt in E].
  - assert (X : b mod 2 ^ 63 = (b - 2 ^ 63) mod 2 ^ 63) by (replace (b - 2 ^ 63) with (b + (-1) * 2 ^ 63) by ring; rewrite Z.mod_add by lia; reflexivity).
    rewrite X, Z.mod_small by lia. lia.
  - symmetry. apply Z.mod_small. lia.
Qed.
Lemma mag_sign neg a : 0 <= a < 2 ^ 63 -> magnitude (with_sign neg a) = magnitude a /\ exponent (with_sign neg a) = exponent a /\ fraction (with_sign neg a) = fraction a.
Proof. intros H. unfold with_sign. destruct neg; [|repeat split]. pose proof (exp_neg a H) as [E F]. unfold magnitude. rewrite E, F. repeat split. Qed.
Lemma inf_lt : inf_bits < 2 ^ 63. Proof. reflexivity. Qed.
Lemma pow52_pos : 0 < 2 ^ 52. Proof. reflexivity. Qed.
Lemma finite_abs b : finite b <-> pattern b /\ f_abs b < inf_bits.
Proof.
  unfold finite. split; intros [P H]; (split; [exact P|]); destruct (pattern_split b P) as [R E]; pose proof (proj1 (proj2 (mag_sign (f_neg b) (f_abs b) R))) as X; rewrite <- E, (exp_pos (f_abs b)) in X by exact R.
  - rewrite X in H. unfold inf_bits. pose proof (Z.div_mod (f_abs b) (2 ^ 52) ltac:(lia)). pose proof (Z.mod_pos_bound (f_abs b) (2 ^ 52) pow52_pos). nia.
  - rewrite X. apply Z.div_lt_upper_bound; [apply pow52_pos|]. unfold inf_bits in H. lia.
Qed.
Lemma mag_bits_spec F : fl F -> F < mag_limit -> 0 <= mag_bits F < inf_bits /\ magnitude (mag_bits F) = F /\ Z.even (mag_bits F) = Z.even (mant F).
Proof.
  intros HF L. pose proof (fl_mant F HF) as EF. unfold mag_bits. cbv zeta. fold (mant F). set (k := ulp_exp F) in *. set (m := mant F) in *.
  pose proof (ulp_nonneg F) as K. fold k in K. pose proof (pow2_pos k K) as PK.
  pose proof (proj1 (ulp_range F k (proj1 HF) K) eq_refl) as [R1 R2]. rewrite (pow2_add 53 k) in R2 by lia.
  assert (Hm : 0 <= m < 2 ^ 53) by (destruct HF; nia). change (2 ^ 53) with (2 * 2 ^ 52) in Hm.
  assert (Hk : (k = 0 \/ 2 ^ 52 <= m) /\ k <= 2045).
  { destruct R1 as [R1|R1]; [split; [left; exact R1|lia]|]. rewrite (pow2_add 52 k) in R1 by lia. split; [right; nia|].
    destruct (Z_le_gt_dec k 2045) as [C|C]; [exact C|]. exfalso. unfold mag_limit in L. pose proof (Z.pow_le_mono_r 2 2098 (52 + k)). rewrite (pow2_add 52 k) in H by lia. lia. }
  destruct Hk as [Hk1 Hk2]. assert (B1 : 0 <= k * 2 ^ 52 + m < inf_bits). { unfold inf_bits. pose proof pow52_pos. nia. } split; [exact B1|]. split.
  - assert (B2 : 0 <= k * 2 ^ 52 + m < 2 ^ 63) by (pose proof inf_lt; lia). unfold magnitude. rewrite (exp_pos _ B2). unfold fraction.
    rewrite Z.div_add_l by lia. replace (k * 2 ^ 52 + m) with (m + k * 2 ^ 52) by ring. rewrite Z.mod_add by lia.
    destruct (Z_lt_le_dec m (2 ^ 52)) as [C|C].
    + destruct Hk1 as [K0|?]; [|lia]. rewrite Z.div_small, Z.mod_small by lia. rewrite K0 in *. cbn [Z.eqb]. rewrite EF. rewrite Z.pow_0_r. change (0 + 0 =? 0) with true. cbv iota. lia.
    + assert (D : m / 2 ^ 52 = 1) by (symmetry; apply (Z.div_unique m (2 ^ 52) 1 (m - 2 ^ 52)); lia). rewrite D. assert (Md : m mod 2 ^ 52 = m - 2 ^ 52) by (symmetry; apply (Z.mod_unique m (2 ^ 52) 1); lia). rewrite Md.
      destruct (k + 1 =? 0) eqn:E; [apply Z.eqb_eq in E; lia|]. replace (k + 1 - 1) with k by lia. rewrite EF. f_equal. lia.
  - rewrite Z.even_add, Z.even_mul. change (Z.even (2 ^ 52)) with true. rewrite orb_true_r. destruct (Z.even m); reflexivity.
Qed.
Lemma mag_of_bits b : finite b -> fl (magnitude b) /\ magnitude b < mag_limit /\ mag_bits (magnitude b) = f_abs b.
Proof.
  intros H. pose proof (proj1 (finite_abs b) H) as [P HI]. destruct (pattern_split b P) as [R E]. set (a := f_abs b) in *.
  pose proof (proj1 (mag_sign (f_neg b) a R)) as X. rewrite <- E in X. rewrite X. unfold magnitude. rewrite (exp_pos a R). unfold fraction.
  pose proof (Z.div_mod a (2 ^ 52) ltac:(lia)) as D. pose proof (Z.mod_pos_bound a (2 ^ 52) pow52_pos) as M.
  assert (Q : 0 <= a / 2 ^ 52 < 2047). { split; [apply Z.div_pos; lia|]. apply Z.div_lt_upper_bound; [lia|]. unfold inf_bits in HI. lia. }
  set (q := a / 2 ^ 52) in *. set (r := a mod 2 ^ 52) in *. clearbody q r. destruct (q =? 0) eqn:E0; [apply Z.eqb_eq in E0|apply Z.eqb_neq in E0].
  - assert (U : ulp_exp r = 0). { apply ulp_range; [lia|lia|]. split; [left; reflexivity|]. change (2 ^ (53 + 0)) with (2 * 2 ^ 52). lia. }
    split; [|split].
    + split; [lia|]. exists r. rewrite U, Z.pow_0_r. lia.
    + unfold mag_limit. apply Z.lt_trans with (2 ^ 52); [lia|reflexivity].
    + unfold mag_bits. rewrite U. cbv zeta. rewrite Z.pow_0_r, Z.div_1_r. lia.
  - pose proof (pow2_pos (q - 1) ltac:(lia)) as PK. assert (U : ulp_exp ((2 ^ 52 + r) * 2 ^ (q - 1)) = q - 1).
    { apply ulp_range; [nia|lia|]. rewrite (pow2_add 52), (pow2_add 53) by lia. change (2 ^ 53) with (2 * 2 ^ 52). split; [right|]; nia. }
    split; [|split].
    + split; [nia|]. exists (2 ^ 52 + r). rewrite U. reflexivity.
    + apply Z.lt_le_trans with (2 ^ (53 + (q - 1))); [rewrite (pow2_add 53) by lia; change (2 ^ 53) with (2 * 2 ^ 52); nia|]. unfold mag_limit. apply Z.pow_le_mono_r; lia.
    + unfold mag_bits. rewrite U. cbv zeta. rewrite Z.div_mul by lia. nia.
Qed.
(** The model's decoding is that of the specification. *)
Lemma f_mag_spec b : finite b -> f_mag b = magnitude b.
Proof.
  intros H. pose proof (proj1 (finite_abs b) H) as [P HI]. destruct (pattern_split b P) as [R E]. unfold f_mag. cbv zeta. set (a := f_abs b) in *.
  pose proof (proj1 (mag_sign (f_neg b) a R)) as X. rewrite <- E in X. rewrite X. unfold magnitude. rewrite (exp_pos a R). unfold fraction.
  pose proof (Z.div_mod a (2 ^ 52) ltac:(lia)) as D. pose proof (Z.mod_pos_bound a (2 ^ 52) pow52_pos) as M.
  assert (Q : 0 <= a / 2 ^ 52) by (apply Z.div_pos; lia). set (q := a / 2 ^ 52) in *. set (r := a mod 2 ^ 52) in *. clearbody q r.
  destruct (q =? 0) eqn:E0; [apply Z.eqb_eq in E0|apply Z.eqb_neq in E0].
  - rewrite Z.max_l by lia. rewrite Z.pow_0_r. lia.
  - rewrite Z.max_r by lia. f_equal. lia.
Qed.
Lemma value_sign b : finite b -> value b = (if f_neg b then - magnitude b else magnitude b).
Proof. reflexivity. Qed.

(** ** Nearest patterns *)
Lemma fl_zero : fl 0. Proof. split; [lia|]. exists 0. reflexivity. Qed.
Lemma round_mag_tie p q G : 0 < q -> 0 <= p -> fl G -> G <> round_mag p q ->
  Z.abs (p - q * round_mag p q) = Z.abs (p - q * G) -> Z.even (mant (round_mag p q)) = true.
Proof.
  intros Q P HG Ne D. pose proof (round_mag_half p q Q P) as [N T]. pose proof (round_mag_fl p q Q P) as HF. set (F := round_mag p q) in *.
  pose proof (fl_mant F HF) as EF. set (k := ulp_exp F) in *. set (m := mant F) in *. pose proof (ulp_nonneg F) as K. fold k in K. pose proof (pow2_pos k K) as PK.
  assert (D2 : 2 * Z.abs (p - q * F) = q * Z.abs (F - G)). { rewrite <- (Z.abs_eq q) at 2 by lia. rewrite <- Z.abs_mul. assert (q * F <> q * G) by nia. nia. }
  destruct (Z.eq_dec m (2 ^ 52)) as [M|M]; [rewrite M; reflexivity|].
  apply T. assert (B : 2 ^ k <= Z.abs (F - G) -> 2 * Z.abs (p - q * F) = q * 2 ^ k) by (intros; nia). apply B.
  destruct (Z_le_gt_dec k (ulp_exp G)) as [C|C].
  - destruct (fl_mult G k ltac:(lia) HG) as [g Eg]. rewrite Eg, EF. replace (m * 2 ^ k - g * 2 ^ k) with ((m - g) * 2 ^ k) by ring. rewrite Z.abs_mul. assert (m <> g) by (intros ->; apply Ne; congruence). nia.
  - exfalso. assert (K0 : k <> 0) by (pose proof (ulp_nonneg G); lia).
    pose proof (proj1 (ulp_range F k (proj1 HF) K) eq_refl) as [[R1|R1] R2]; [lia|].
    assert (L : G < 2 ^ (52 + k)). { destruct (Z_lt_le_dec G (2 ^ (52 + k))) as [L|L]; [exact L|]. exfalso. assert (k <= ulp_exp G); [|lia].
      pose proof (ulp_mono (2 ^ (52 + k)) G ltac:(pose proof (pow2_pos (52 + k)); lia)) as Mo. assert (E : ulp_exp (2 ^ (52 + k)) = k).
      { apply ulp_range; [pose proof (pow2_pos (52 + k)); lia|lia|]. split; [right; lia|]. apply Z.pow_lt_mono_r; lia. } lia. }
    rewrite (pow2_add 52 k) in * by lia. assert (2 ^ 52 * 2 ^ k + 2 ^ k <= F) by (rewrite EF in *; nia). nia.
Qed.
(** With a sign: [sg neg p] is the number, [p] its absolute value. *)
Notation sg := signed (only parsing).
Lemma nearest_round neg p q : 0 < q -> 0 <= p -> round_mag (p * unit_) q < mag_limit ->
  nearest neg (sg neg p) q (with_sign neg (mag_bits (round_mag (p * unit_) q))).
Proof.
  intros Q P L. assert (U : 0 < unit_) by reflexivity. assert (P' : 0 <= p * unit_) by nia. set (F := round_mag (p * unit_) q) in *.
  pose proof (round_mag_fl (p * unit_) q Q P') as HF. fold F in HF. pose proof (mag_bits_spec F HF L) as (B1 & B2 & B3).
  assert (B4 : 0 <= mag_bits F < 2 ^ 63) by (pose proof inf_lt; lia). pose proof (f_abs_sign neg (mag_bits F) B4) as (S1 & S2 & S3).
  pose proof (mag_sign neg (mag_bits F) B4) as (M1 & _). set (b := with_sign neg (mag_bits F)) in *.
  assert (Fb : finite b). { apply finite_abs. split; [|rewrite S1; lia]. unfold pattern, b, with_sign. change (2 ^ 64) with (2 * 2 ^ 63). destruct neg; lia. }
  assert (Vb : value b = sg neg F) by (unfold value, signed; rewrite S3, M1, B2; reflexivity).
  assert (Ev : Z.even b = Z.even (mant F)). { unfold b, with_sign. destruct neg; [rewrite Z.even_add; change (Z.even (2 ^ 63)) with true|]; rewrite B3; [destruct (Z.even (mant F)); reflexivity|reflexivity]. }
  split; [exact Fb|]. split; [exact S3|]. intros c Fc. destruct (mag_of_bits c Fc) as (G1 & G2 & G3). set (G := magnitude c) in *.
  pose proof (round_mag_best (p * unit_) q G Q P' G1) as Bst. pose proof (round_mag_best (p * unit_) q 0 Q P' fl_zero) as Bst0.
  pose proof (round_mag_tie (p * unit_) q G Q P' G1) as Tie. pose proof (round_mag_tie (p * unit_) q 0 Q P' fl_zero) as Tie0. fold F in Bst, Bst0, Tie, Tie0.
  assert (Db : dist (sg neg p) q b = Z.abs (p * unit_ - q * F)). { unfold dist. rewrite Vb. fold unit_. unfold signed. destruct neg; rewrite <- Z.abs_opp; [rewrite <- Z.abs_opp|]; f_equal; ring. }
  rewrite Db, Ev. unfold dist. fold unit_. assert (G0 : 0 <= G) by exact (proj1 G1).
  assert (Vc : value c = sg neg G \/ value c = - sg neg G) by (unfold value, signed; fold G; destruct neg, (2 ^ 63 <=? c); lia).
  destruct Vc as [Vc|Vc].
  - assert (Dc : Z.abs (q * value c - sg neg p * unit_) = Z.abs (p * unit_ - q * G)). { rewrite Vc. unfold signed. destruct neg; rewrite <- Z.abs_opp; [rewrite <- Z.abs_opp|]; f_equal; ring. }
    rewrite Dc. split; [exact Bst|]. intros D N. apply Tie; [|exact D]. intros E. apply N. rewrite Vc, Vb, E. reflexivity.
  - assert (Dc : Z.abs (q * value c - sg neg p * unit_) = p * unit_ + q * G). { rewrite Vc. unfold signed. destruct neg; nia. }
    rewrite Dc. rewrite Z.mul_0_r, Z.sub_0_r, (Z.abs_eq (p * unit_)) in Bst0, Tie0 by lia. split; [nia|]. intros D N. assert (Gz : G = 0) by nia. rewrite Gz, Z.mul_0_r in D. apply Tie0; [|lia].
    intros E. apply N. rewrite Vc, Vb, Gz, <- E. unfold signed. destruct neg; reflexivity.
Qed.
(** The next representable magnitude. *)
Lemma fl_next F : fl F -> fl (F + 2 ^ ulp_exp F).
Proof.
  intros HF. pose proof (fl_mant F HF) as EF. set (k := ulp_exp F) in *. set (m := mant F) in *. pose proof (ulp_nonneg F) as K. fold k in K. pose proof (pow2_pos k K).
  pose proof (proj1 (ulp_range F k (proj1 HF) K) eq_refl) as [_ R2]. rewrite (pow2_add 53 k) in R2 by lia. destruct HF as [F0 _].
  replace (F + 2 ^ k) with ((m + 1) * 2 ^ k) by (rewrite EF; ring). apply fl_of; [exact K|].
  assert (0 <= m < 2 ^ 53); [|lia]. clearbody k m. nia.
Qed.
Lemma next_parity F : fl F -> Z.even (mant F) = true -> Z.even (mant (F + 2 ^ ulp_exp F)) = false.
Proof.
  intros HF Ev. pose proof (fl_mant F HF) as EF. set (k := ulp_exp F) in *. set (m := mant F) in *. pose proof (ulp_nonneg F) as K. fold k in K. pose proof (pow2_pos k K) as PK.
  pose proof (proj1 (ulp_range F k (proj1 HF) K) eq_refl) as [R1 R2]. rewrite (pow2_add 53 k) in R2 by lia. rewrite (pow2_add 52 k) in R1 by lia. destruct HF as [F0 _].
  assert (Hm : 0 <= m < 2 ^ 53) by (clearbody k m; nia). assert (m <> 2 ^ 53 - 1) by (intros X; rewrite X in Ev; discriminate Ev).
  assert (E : ulp_exp (F + 2 ^ k) = k). { apply ulp_range; [lia|lia|]. rewrite (pow2_add 52 k), (pow2_add 53 k) by lia. split; [destruct R1; [left; assumption|right; lia]|]. rewrite EF. nia. }
  unfold mant. rewrite E. replace (F + 2 ^ k) with ((m + 1) * 2 ^ k) by (rewrite EF; ring). rewrite Z.div_mul by lia. rewrite Z.even_add, Ev. reflexivity.
Qed.
Lemma next_le F G : fl F -> fl G -> F < G -> F + 2 ^ ulp_exp F <= G.
Proof.
  intros HF HG L. pose proof (ulp_mono F G ltac:(destruct HF; lia)) as M. destruct (fl_mult G (ulp_exp F) ltac:(pose proof (ulp_nonneg F); lia) HG) as [g Eg].
  pose proof (fl_mant F HF) as EF. set (k := ulp_exp F) in *. pose proof (ulp_nonneg F) as K. fold k in K. pose proof (pow2_pos k K). set (m := mant F) in *. clearbody k m. assert (m < g) by nia. nia.
Qed.
Lemma nearest_aux p q F G : 0 < q -> fl F -> fl G -> G < mag_limit -> F < G ->
  Z.abs (q * F - p) = Z.abs (q * G - p) -> (forall H, fl H -> H < mag_limit -> Z.abs (q * F - p) <= Z.abs (q * H - p)) ->
  Z.even (mant F) = true -> Z.even (mant G) = true -> False.
Proof.
  intros Q HF HG LG L D Bst EvF EvG. pose proof (next_le F G HF HG L) as N. pose proof (fl_next F HF) as HN. pose proof (next_parity F HF EvF) as Pr.
  pose proof (pow2_pos _ (ulp_nonneg F)) as PK. set (H := F + 2 ^ ulp_exp F) in *. destruct (Z.eq_dec H G) as [E|Ne]; [rewrite E in Pr; congruence|].
  specialize (Bst H HN ltac:(lia)). assert (q * F < q * H) by (unfold H; nia). assert (q * H < q * G) by nia. lia.
Qed.
Lemma nearest_unique neg p q b c : 0 < q -> nearest neg p q b -> nearest neg p q c -> b = c.
Proof.
  intros Q (Fb & Sb & Hb) (Fc & Sc & Hc). destruct (mag_of_bits b Fb) as (F1 & F2 & F3). destruct (mag_of_bits c Fc) as (G1 & G2 & G3).
  destruct (pattern_split b (proj1 Fb)) as [Rb Eb]. destruct (pattern_split c (proj1 Fc)) as [Rc Ec].
  change (f_neg b) with (2 ^ 63 <=? b) in Eb. change (f_neg c) with (2 ^ 63 <=? c) in Ec. rewrite Sb in Eb. rewrite Sc in Ec.
  enough (M : magnitude b = magnitude c) by (rewrite Eb, Ec, <- F3, <- G3, M; reflexivity).
  destruct (Hb c Fc) as [D1 T1]. destruct (Hc b Fb) as [D2 T2]. assert (D : dist p q b = dist p q c) by lia.
  assert (V : forall x, finite x -> (2 ^ 63 <=? x) = neg -> dist p q x = Z.abs (q * magnitude x - sg neg p * unit_)).
  { intros x _ Sx. unfold dist, value, signed. fold unit_. rewrite Sx. destruct neg; [rewrite <- Z.abs_opp|]; f_equal; ring. }
  destruct (Z.eq_dec (magnitude b) (magnitude c)) as [E|Ne]; [exact E|exfalso].
  assert (VN : value c <> value b) by (unfold value; rewrite Sb, Sc; destruct neg; lia).
  assert (Par : forall x, finite x -> (2 ^ 63 <=? x) = neg -> Z.even x = Z.even (mant (magnitude x))).
  { intros x Fx Sx. destruct (mag_of_bits x Fx) as (X1 & X2 & X3). pose proof (mag_bits_spec _ X1 X2) as (_ & _ & X4). rewrite <- X4, X3.
    destruct (pattern_split x (proj1 Fx)) as [_ Ex]. rewrite Ex at 1. unfold with_sign. destruct (f_neg x); [rewrite Z.even_add; change (Z.even (2 ^ 63)) with true|]; [destruct (Z.even (f_abs x)); reflexivity|reflexivity]. }
  pose proof (T1 D VN) as EvB. pose proof (T2 (eq_sym D) (fun e => VN (eq_sym e))) as EvC. rewrite Par in EvB, EvC by assumption.
  rewrite (V b Fb Sb), (V c Fc Sc) in D.
  assert (Bst : forall H, fl H -> H < mag_limit -> Z.abs (q * magnitude b - sg neg p * unit_) <= Z.abs (q * H - sg neg p * unit_)).
  { intros H HH HL. pose proof (mag_bits_spec H HH HL) as (B1 & B2 & B3). assert (B4 : 0 <= mag_bits H < 2 ^ 63) by (pose proof inf_lt; lia).
    pose proof (f_abs_sign neg (mag_bits H) B4) as (S1 & S2 & S3). pose proof (mag_sign neg (mag_bits H) B4) as (M1 & _).
    assert (Fh : finite (with_sign neg (mag_bits H))). { apply finite_abs. split; [|rewrite S1; lia]. unfold pattern, with_sign. change (2 ^ 64) with (2 * 2 ^ 63). destruct neg; lia. }
    destruct (Hb _ Fh) as [DH _]. rewrite (V b Fb Sb), (V _ Fh S3), M1, B2 in DH. exact DH. }
  destruct (Z_lt_le_dec (magnitude b) (magnitude c)) as [L|L].
  - exact (nearest_aux _ q _ _ Q F1 G1 G2 L D Bst EvB EvC).
  - rewrite D in Bst. exact (nearest_aux _ q _ _ Q G1 F1 F2 ltac:(lia) (eq_sym D) Bst EvC EvB).
Qed.
(** Overflow. *)
Definition max_mag : Z := (2 ^ 53 - 1) * 2 ^ 2045.
Lemma overflow p q : 0 < q -> 0 <= p -> mag_limit <= round_mag (p * unit_) q <-> too_large p q.
Proof.
  intros Q P. assert (U : 0 < unit_) by reflexivity. assert (P' : 0 <= p * unit_) by nia. unfold too_large. rewrite (Z.abs_eq p) by lia.
  assert (HM : fl max_mag). { apply fl_of; [lia|]. split; [apply Z.leb_le|apply Z.leb_le]; reflexivity. }
  assert (L1 : mag_limit = max_mag + 2 * 2 ^ 2044) by reflexivity. assert (L2 : (2 ^ 1024 - 2 ^ 970) * unit_ = max_mag + 2 ^ 2044) by reflexivity.
  assert (LU : ulp_exp max_mag = 2045) by reflexivity. assert (LM : mant max_mag = 2 ^ 53 - 1) by (unfold mant; rewrite LU; unfold max_mag; rewrite Z.div_mul by (apply Z.pow_nonzero; lia); reflexivity).
  assert (PU : 2 ^ ulp_exp max_mag = 2 * 2 ^ 2044) by (rewrite LU; reflexivity). assert (P44 : 0 < 2 ^ 2044) by reflexivity.
  pose proof (round_mag_fl (p * unit_) q Q P') as HF. pose proof (round_mag_half (p * unit_) q Q P') as [N T]. pose proof (round_mag_best (p * unit_) q max_mag Q P' HM) as Bst.
  set (F := round_mag (p * unit_) q) in *. clearbody F. generalize dependent max_mag. intros mx; intros.
  assert (EQ : q * (2 ^ 1024 - 2 ^ 970) <= p <-> q * (mx + 2 ^ 2044) <= p * unit_). { rewrite <- L2. replace (q * ((2 ^ 1024 - 2 ^ 970) * unit_)) with (q * (2 ^ 1024 - 2 ^ 970) * unit_) by ring. split; intros; nia. }
  rewrite EQ. rewrite L1. set (h := 2 ^ 2044) in *. clearbody h. clear L1 L2 EQ. set (pu := p * unit_) in *. clearbody pu. split; intros H.
  - destruct (Z_le_gt_dec (q * (mx + h)) pu) as [C|C]; [exact C|exfalso]. destruct HM as [M0 _]. nia.
  - destruct (Z_le_gt_dec (mx + 2 * h) F) as [C|C]; [exact C|exfalso].
    assert (F <= mx). { destruct (Z_le_gt_dec F mx) as [X|X]; [exact X|]. pose proof (next_le mx F HM HF ltac:(lia)). lia. }
    pose proof (ulp_mono F mx ltac:(destruct HF; lia)) as UM. assert (2 ^ ulp_exp F <= 2 * h) by (rewrite <- PU; apply Z.pow_le_mono_r; [lia|exact UM]).
    assert (F = mx) by nia. subst F. rewrite PU in *. assert (Z.even (mant mx) = true) as Ev by (apply T; nia). rewrite LM in Ev. discriminate Ev.
Qed.
(** Scaling a fraction. *)
Lemma nearest_scale neg p q c b : 0 < c -> nearest neg (p * c) (q * c) b <-> nearest neg p q b.
Proof.
  intros C. unfold nearest. assert (D : forall x, dist (p * c) (q * c) x = dist p q x * c).
  { intros x. unfold dist. rewrite <- (Z.abs_eq c) at 3 by lia. rewrite <- Z.abs_mul. f_equal. ring. }
  split; intros (A & S & H); (split; [exact A|]); (split; [exact S|]); intros x Fx; destruct (H x Fx) as [H1 H2]; rewrite !D in *; (split; [nia|]); intros E; apply H2; nia.
Qed.
Lemma too_large_scale p q c : 0 < c -> too_large (p * c) (q * c) <-> too_large p q.
Proof.
  intros C. unfold too_large. rewrite Z.abs_mul, (Z.abs_eq c) by lia. replace (q * c * (2 ^ 1024 - 2 ^ 970)) with (q * (2 ^ 1024 - 2 ^ 970) * c) by ring. split; intros; nia.
Qed.
(** round_float is correct rounding of m * base^e = p/q. *)
Lemma round_float_spec neg base m e p q : 0 < base -> 0 <= m -> 0 < q -> 0 <= p ->
  (0 <= e -> p = m * base ^ e * q) -> (e < 0 -> p * base ^ (- e) = m * q) ->
  match round_float neg base m e with Some b => nearest neg (sg neg p) q b | None => too_large p q end.
Proof.
  intros Bs M Q P E1 E2. unfold round_float. destruct (0 <=? e) eqn:E; [apply Z.leb_le in E|apply Z.leb_gt in E].
  - specialize (E1 E). set (w := m * base ^ e) in *. assert (W : 0 <= w) by (unfold w; pose proof (Z.pow_nonneg base e); nia).
    destruct (round_mag (w * unit_) 1 <? mag_limit) eqn:L; [apply Z.ltb_lt in L|apply Z.ltb_ge in L].
    + pose proof (nearest_round neg w 1 ltac:(lia) W L) as N. apply (nearest_scale neg _ 1 q) in N; [|exact Q]. rewrite Z.mul_1_l in N. replace (sg neg p) with (sg neg w * q); [exact N|]. unfold signed. rewrite E1. destruct neg; ring.
    + apply (overflow w 1) in L; [|lia|exact W]. apply (too_large_scale w 1 q) in L; [|exact Q]. rewrite Z.mul_1_l, <- E1 in L. exact L.
  - specialize (E2 E). pose proof (Z.pow_pos_nonneg base (- e) Bs ltac:(lia)) as D. set (d := base ^ (- e)) in *. clearbody d.
    destruct (round_mag (m * unit_) d <? mag_limit) eqn:L; [apply Z.ltb_lt in L|apply Z.ltb_ge in L].
    + pose proof (nearest_round neg m d D M L) as N. apply (nearest_scale neg _ d q) in N; [|exact Q]. apply (nearest_scale neg _ q d); [exact D|].
      replace (sg neg p * d) with (sg neg m * q); [rewrite (Z.mul_comm q d); exact N|]. unfold signed. destruct neg; lia.
    + apply (overflow m d) in L; [|lia|exact M]. apply (too_large_scale m d q) in L; [|exact Q]. apply (too_large_scale p q d); [exact D|]. rewrite E2, (Z.mul_comm q d). exact L.
Qed.
Lemma round_float_range neg base m e p q : 0 < base -> 0 <= m -> 0 < q -> 0 <= p ->
  (0 <= e -> p = m * base ^ e * q) -> (e < 0 -> p * base ^ (- e) = m * q) -> too_large p q -> round_float neg base m e = None.
Proof.
  intros Bs M Q P E1 E2 T. unfold round_float. destruct (0 <=? e) eqn:E; [apply Z.leb_le in E|apply Z.leb_gt in E].
  - specialize (E1 E). set (w := m * base ^ e) in *. assert (W : 0 <= w) by (unfold w; pose proof (Z.pow_nonneg base e); nia).
    assert (L : mag_limit <= round_mag (w * unit_) 1). { apply overflow; [lia|exact W|]. apply (too_large_scale w 1 q); [exact Q|]. rewrite Z.mul_1_l, <- E1. exact T. }
    apply Z.ltb_ge in L. rewrite L. reflexivity.
  - specialize (E2 E). pose proof (Z.pow_pos_nonneg base (- e) Bs ltac:(lia)) as D. set (d := base ^ (- e)) in *. clearbody d.
    assert (L : mag_limit <= round_mag (m * unit_) d). { apply overflow; [lia|exact M|]. apply (too_large_scale m d q); [exact Q|]. apply (too_large_scale p q d) in T; [|exact D]. rewrite E2, (Z.mul_comm q d) in T. exact T. }
    apply Z.ltb_ge in L. rewrite L. reflexivity.
Qed.
(** ** Texts *)
Definition dv (a : Z) (s : bytes) : Z := fold_left (fun a c => 10 * a + (Z.of_nat (nat_of_ascii c) - 48)) s a.
Lemma dv_app a s t : dv a (s ++ t) = dv (dv a s) t. Proof. apply fold_left_app. Qed.
Lemma dv_shift s : forall a, dv a s = a * 10 ^ Z.of_nat (length s) + dec_val s.
Proof.
  unfold dec_val. fold (dv 0 s). induction s as [|c s IH]; intros a; [cbn [dv fold_left length]; rewrite Z.pow_0_r; unfold dv; cbn [fold_left]; lia|].
  assert (X : forall b, dv b (c :: s) = dv (10 * b + (Z.of_nat (nat_of_ascii c) - 48)) s) by reflexivity. rewrite !X, IH, (IH (10 * 0 + _)).
  cbn [length]. rewrite Nat2Z.inj_succ, Z.pow_succ_r by lia. ring.
Qed.
Lemma dv_nonneg s : forall a, 0 <= a -> Forall is_digit s -> 0 <= dv a s /\ a * 10 ^ Z.of_nat (length s) <= dv a s.
Proof.
  induction s as [|c s IH]; intros a A D; [cbn; rewrite Z.pow_0_r; lia|]. inversion D as [|? ? [D1 D2] Ds]; subst.
  change (dv a (c :: s)) with (dv (10 * a + (Z.of_nat (nat_of_ascii c) - 48)) s). destruct (IH (10 * a + (Z.of_nat (nat_of_ascii c) - 48)) ltac:(lia) Ds) as [I1 I2]. split; [exact I1|].
  cbn [length]. rewrite Nat2Z.inj_succ, Z.pow_succ_r by lia. pose proof (Z.pow_nonneg 10 (Z.of_nat (length s))). nia.
Qed.
Lemma chr_spec n c : chr n c = true <-> nat_of_ascii c = n. Proof. apply Nat.eqb_eq. Qed.
Lemma chr_false n c : chr n c = false <-> nat_of_ascii c <> n. Proof. apply Nat.eqb_neq. Qed.
Lemma digit_lower c : is_digit c -> lower_ascii c = c.
Proof. intros [A Bd]. unfold lower_ascii. destruct (Nat.leb 65 (nat_of_ascii c)) eqn:E; [apply Nat.leb_le in E; lia|reflexivity]. Qed.
Lemma rm_digits ds : Forall is_digit ds -> forall dot saw und m f r,
  read_mant false dot saw und m f (ds ++ r) = read_mant false dot (saw || negb (is_empty ds)) und (dv m ds) (if dot then f + Z.of_nat (length ds) else f) r.
Proof.
  induction 1 as [|c ds D Ds IH]; intros dot saw und m f r.
  - cbn [app is_empty negb length dv fold_left]. rewrite orb_false_r. destruct dot; [|reflexivity]. f_equal. lia.
  - cbn [app read_mant]. destruct D as [D1 D2]. assert (chr 95 c = false) as -> by (apply chr_false; lia). assert (chr 46 c = false) as -> by (apply chr_false; lia).
    unfold flt_digit. rewrite (digit_of c (conj D1 D2)). rewrite IH. cbn [is_empty negb length]. rewrite orb_true_r. f_equal.
    + change (dv m (c :: ds)) with (dv (10 * m + (Z.of_nat (nat_of_ascii c) - 48)) ds). f_equal. lia.
    + destruct dot; [rewrite Nat2Z.inj_succ; lia|reflexivity].
Qed.
Lemma re_digits ds : Forall is_digit ds -> forall und e, 0 <= e -> dv e ds < 100000 -> read_exp und e ds = (dv e ds, und, []).
Proof.
  induction 1 as [|c ds D Ds IH]; intros und e He L; [reflexivity|]. cbn [read_exp]. destruct D as [D1 D2].
  assert (chr 95 c = false) as -> by (apply chr_false; lia). rewrite (digit_of c (conj D1 D2)).
  change (dv e (c :: ds)) with (dv (10 * e + (Z.of_nat (nat_of_ascii c) - 48)) ds) in *.
  assert (e < 10000). { pose proof (dv_nonneg ds (10 * e + (Z.of_nat (nat_of_ascii c) - 48)) ltac:(lia) Ds) as [_ N]. pose proof (Z.pow_pos_nonneg 10 (Z.of_nat (length ds))). nia. }
  destruct (e <? 10000) eqn:E; [|apply Z.ltb_ge in E; lia]. replace (e * 10 + (Z.of_nat (nat_of_ascii c) - 48)) with (10 * e + (Z.of_nat (nat_of_ascii c) - 48)) by lia. apply IH; lia.
Qed.
Lemma read_sign_text t neg r : sign_text t neg -> (forall c r', r = c :: r' -> nat_of_ascii c <> 43%nat /\ nat_of_ascii c <> 45%nat) -> read_sign (t ++ r) = (neg, r).
Proof.
  intros H N. inversion H; subst; [|reflexivity|reflexivity]. cbn [app]. destruct r as [|c r']; [reflexivity|]. destruct (N c r' eq_refl) as [N1 N2]. unfold read_sign.
  assert (chr 43 c = false) as -> by (apply chr_false; lia). assert (chr 45 c = false) as -> by (apply chr_false; lia). reflexivity.
Qed.
(** The mantissa and exponent of a decimal literal without its sign. *)
Lemma read_decimal ip fr fp ex x : Forall is_digit ip -> frac_text fr fp -> ip ++ fp <> [] -> exp_text ex x -> Z.abs x < 100000 ->
  read_float false (ip ++ fr ++ ex) = Some (dec_val (ip ++ fp), x - Z.of_nat (length fp)).
Proof.
  intros Hi Hf Ne He Hx. unfold read_float.
  assert (RM : read_mant false false false false 0 0 (ip ++ fr ++ ex) = (dec_val (ip ++ fp), Z.of_nat (length fp), true, false, ex)).
  { assert (Stop : forall dot saw m f, read_mant false dot saw false m f ex = (m, f, saw, false, ex)).
    { intros dot saw m f. inversion He; subst; [reflexivity|]. cbn in H. destruct H as [<-|[<-|[]]]; reflexivity. }
    rewrite rm_digits by exact Hi. inversion Hf; subst.
    - rewrite app_nil_r in *. cbn [app length]. rewrite Stop. destruct ip as [|c ip]; [congruence|]. reflexivity.
    - cbn [app]. change (B "." ++ fp) with (ascii_of_nat 46 :: fp). cbn [app].
      transitivity (read_mant false true (false || negb (is_empty ip)) false (dv 0 ip) 0 (fp ++ ex)); [reflexivity|]. rewrite rm_digits by exact H.
      rewrite Stop. rewrite <- dv_app. rewrite Z.add_0_l. change (dv 0 (ip ++ fp)) with (dec_val (ip ++ fp)). repeat f_equal.
      destruct ip; [|reflexivity]. cbn [app] in Ne. destruct fp; [congruence|reflexivity]. }
  rewrite RM. cbn [negb]. cbv zeta. inversion He; subst.
  - cbn [andb]. f_equal. f_equal. lia.
  - assert (chr 101 (lower_ascii c) = true) as -> by (cbn in H; destruct H as [<-|[<-|[]]]; reflexivity).
    destruct H1 as [D1 D2]. assert (Hd : forall c0 r', ds = c0 :: r' -> nat_of_ascii c0 <> 43%nat /\ nat_of_ascii c0 <> 45%nat).
    { intros c0 r' ->. inversion D2 as [|? ? [A Bd] _]; subst. lia. }
    rewrite (read_sign_text t neg ds H0 Hd). destruct ds as [|d ds]; [congruence|]. inversion D2 as [|? ? Dd Dds]; subst. rewrite (digit_of d Dd).
    assert (V : dv 0 (d :: ds) < 100000). { change (dv 0 (d :: ds)) with (dec_val (d :: ds)). unfold signed in Hx. destruct neg; lia. }
    rewrite (re_digits (d :: ds) D2 false 0 ltac:(lia) V). cbn [is_empty andb]. change (dv 0 (d :: ds)) with (dec_val (d :: ds)). f_equal. f_equal. unfold signed. destruct neg; lia.
Qed.
(** The characters of a decimal literal. *)
Definition dec_char (c : ascii) : Prop := is_digit c \/ In c (B "+-.eE").
Lemma sign_chars t neg : sign_text t neg -> Forall dec_char t.
Proof. intros H. inversion H; subst; repeat constructor; right; cbn; tauto. Qed.
Lemma digit_chars s : Forall is_digit s -> Forall dec_char s.
Proof. apply Forall_impl. intros; left; assumption. Qed.
Lemma decimal_chars ip fr fp ex x : Forall is_digit ip -> frac_text fr fp -> exp_text ex x -> Forall dec_char (ip ++ fr ++ ex).
Proof.
  intros Hi Hf He. apply Forall_app. split; [apply digit_chars, Hi|]. apply Forall_app. split.
  - inversion Hf; subst; [constructor|]. constructor; [right; cbn; tauto|]. apply digit_chars. assumption.
  - inversion He; subst; [constructor|]. constructor; [right; cbn in *; tauto|]. apply Forall_app. split; [eapply sign_chars; eassumption|]. apply digit_chars. exact (proj2 H1).
Qed.
Lemma dec_char_lower c : dec_char c -> chr 120 (lower_ascii c) = false.
Proof. intros [H|H]; [rewrite (digit_lower c H); destruct H; apply chr_false; lia|]. cbn in H. repeat destruct H as [<-|H]; try reflexivity. destruct H. Qed.
Lemma fold_head c s d t : lower_ascii c <> lower_ascii d -> equal_fold (c :: s) (d :: t) = false.
Proof. intros N. unfold equal_fold. apply beqb_neq. cbn [map]. congruence. Qed.
Lemma parse_decimal s neg ip fp x : decimal s neg ip fp x -> Z.abs x < 100000 ->
  parse_float s = round_float neg 10 (dec_val (ip ++ fp)) (x - Z.of_nat (length fp)).
Proof.
  intros (t & fr & ex & -> & Ht & Hi & Hf & Ne & He) Hx. set (u := ip ++ fr ++ ex).
  assert (Hd : exists c r, u = c :: r /\ (is_digit c \/ c = ascii_of_nat 46)).
  { unfold u. destruct ip as [|c ip]; [|exists c, (ip ++ fr ++ ex); split; [reflexivity|left; inversion Hi; assumption]].
    cbn [app] in *. inversion Hf; subst; [congruence|]. exists (ascii_of_nat 46), (fp ++ ex). split; [reflexivity|right; reflexivity]. }
  destruct Hd as (c & r & Eu & Hc). assert (N : nat_of_ascii c <> 43%nat /\ nat_of_ascii c <> 45%nat /\ nat_of_ascii c <> 105%nat /\ nat_of_ascii c <> 110%nat /\ lower_ascii c = c).
  { destruct Hc as [D| ->]; [pose proof (digit_lower c D); destruct D; repeat split; try lia; assumption|]. repeat split; vm_compute; lia || reflexivity. }
  destruct N as (N1 & N2 & N3 & N4 & N5). unfold parse_float. rewrite (read_sign_text t neg u Ht) by (intros ? ? X; rewrite Eu in X; injection X as <- <-; auto).
  assert (F1 : equal_fold u (B "inf") = false). { rewrite Eu. apply (fold_head c r (ascii_of_nat 105)). rewrite N5. intros X. apply N3. rewrite X. reflexivity. }
  assert (F2 : equal_fold u (B "infinity") = false). { rewrite Eu. apply (fold_head c r (ascii_of_nat 105)). rewrite N5. intros X. apply N3. rewrite X. reflexivity. }
  assert (F3 : equal_fold (t ++ u) (B "nan") = false).
  { inversion Ht; subst; cbn [app]; [rewrite Eu; apply (fold_head c r (ascii_of_nat 110)); rewrite N5; intros X; apply N4; rewrite X; reflexivity| |];
      apply (fold_head _ _ (ascii_of_nat 110)); vm_compute; discriminate. }
  rewrite F1, F2, F3. cbn [orb]. pose proof (decimal_chars ip fr fp ex x Hi Hf He) as Ch. fold u in Ch.
  assert (Hx' : match u with z :: y :: _ :: _ => chr 48 z && chr 120 (lower_ascii y) | _ => false end = false).
  { destruct u as [|z [|y [|w v]]]; try reflexivity. inversion Ch as [|? ? _ Ch1]; subst. inversion Ch1 as [|? ? Cy _]; subst. rewrite (dec_char_lower y Cy), andb_false_r. reflexivity. }
  rewrite Hx'. cbv zeta iota. unfold u. rewrite (read_decimal ip fr fp ex x Hi Hf Ne He Hx). reflexivity.
Qed.
Lemma decimal_nearest s neg ip fp x : decimal s neg ip fp x -> Z.abs x < 100000 ->
  match parse_float s with Some b => nearest neg (signed neg (dec_num ip fp x)) (dec_den fp x) b | None => too_large (dec_num ip fp x) (dec_den fp x) end.
Proof.
  intros H Hx. rewrite (parse_decimal s neg ip fp x H Hx). destruct H as (t & fr & ex & _ & _ & Hi & Hf & _ & _).
  assert (Hfp : Forall is_digit fp) by (inversion Hf; subst; [constructor|assumption]). set (m := dec_val (ip ++ fp)).
  assert (M : 0 <= m). { unfold m. change (dec_val (ip ++ fp)) with (dv 0 (ip ++ fp)). apply dv_nonneg; [lia|]. apply Forall_app; auto. }
  set (l := Z.of_nat (length fp)). unfold dec_num, dec_den. fold m l. assert (L : 0 <= l) by (unfold l; lia).
  pose proof (Z.pow_pos_nonneg 10 (Z.max 0 x)) as P1. pose proof (Z.pow_pos_nonneg 10 (l + Z.max 0 (- x))) as P2.
  apply round_float_spec; [lia|exact M|lia|nia| |].
  - intros E. rewrite <- Z.mul_assoc, <- Z.pow_add_r by lia. do 2 f_equal. lia.
  - intros E. rewrite <- Z.mul_assoc, <- Z.pow_add_r by lia. do 2 f_equal. lia.
Qed.
Lemma decimal_range s neg ip fp x : decimal s neg ip fp x -> Z.abs x < 100000 -> (parse_float s = None <-> too_large (dec_num ip fp x) (dec_den fp x)).
Proof.
  intros H Hx. pose proof (decimal_nearest s neg ip fp x H Hx) as N. split; [intros E; rewrite E in N; exact N|]. intros T.
  rewrite (parse_decimal s neg ip fp x H Hx). destruct H as (t & fr & ex & _ & _ & Hi & Hf & _ & _).
  assert (Hfp : Forall is_digit fp) by (inversion Hf; subst; [constructor|assumption]). clear N. unfold dec_num, dec_den in T. set (m := dec_val (ip ++ fp)) in *.
  assert (M : 0 <= m). { unfold m. change (dec_val (ip ++ fp)) with (dv 0 (ip ++ fp)). apply dv_nonneg; [lia|]. apply Forall_app; auto. }
  set (l := Z.of_nat (length fp)) in *. assert (L : 0 <= l) by (unfold l; lia).
  pose proof (Z.pow_pos_nonneg 10 (Z.max 0 x)) as P1. pose proof (Z.pow_pos_nonneg 10 (l + Z.max 0 (- x))) as P2.
  apply (round_float_range neg 10 m (x - l) (m * 10 ^ Z.max 0 x) (10 ^ (l + Z.max 0 (- x)))); [lia|exact M|lia|nia| | |exact T].
  - intros E. rewrite <- Z.mul_assoc, <- Z.pow_add_r by lia. do 2 f_equal. lia.
  - intros E. rewrite <- Z.mul_assoc, <- Z.pow_add_r by lia. do 2 f_equal. lia.
Qed.
(** ** Printing *)
Lemma zeros_val k : dec_val (repeat (ascii_of_nat 48) k) = 0.
Proof. unfold dec_val. fold (dv 0 (repeat (ascii_of_nat 48) k)). induction k as [|k IH]; [reflexivity|]. exact IH. Qed.
Lemma fmt_uint_len6 n : 0 <= n < 1000000 -> (length (fmt_uint 10 n) <= 6)%nat.
Proof.
  intros H. assert (G : forall k n, 0 <= n < 10 ^ Z.of_nat (S k) -> (length (fmt_uint 10 n) <= S k)%nat).
  { clear. induction k as [|k IH]; intros n Hn.
    - rewrite fmt_uint_small by (change (10 ^ Z.of_nat 1) with 10 in Hn; lia). cbn. lia.
    - destruct (Z_lt_dec n 10) as [L|L]; [rewrite fmt_uint_small by lia; cbn; lia|]. rewrite fmt_uint_step, app_length by lia. cbn [length].
      assert (Hd : 0 <= n / 10 < 10 ^ Z.of_nat (S k)).
      { split; [apply Z.div_pos; lia|]. apply Z.div_lt_upper_bound; [lia|]. replace (Z.of_nat (S (S k))) with (Z.succ (Z.of_nat (S k))) in Hn by lia.
        rewrite Z.pow_succ_r in Hn by lia. lia. }
      specialize (IH _ Hd). lia. }
  apply (G 5%nat). exact H.
Qed.
Lemma pad6_len n : 0 <= n < 1000000 -> length (pad6 n) = 6%nat.
Proof. intros H. unfold pad6. rewrite app_length, repeat_length. pose proof (fmt_uint_len6 n H). lia. Qed.
Lemma pad6_digits n : 0 <= n -> Forall is_digit (pad6 n).
Proof.
  intros H. unfold pad6. cbv zeta. apply Forall_app. split; [|apply fmt_uint_dec; exact H].
  apply Forall_forall. intros c Hc. apply repeat_spec in Hc. subst c. split; vm_compute; lia.
Qed.
Lemma pad6_val n : 0 <= n -> dec_val (pad6 n) = n.
Proof. intros H. unfold pad6. cbv zeta. change (dec_val ?s) with (dv 0 s). rewrite dv_app. change (dv 0 (repeat ?c ?k)) with (dec_val (repeat c k)). rewrite zeros_val. apply fmt_uint_dec. exact H. Qed.
Lemma micros_decimal neg n : 0 <= n -> decimal ((if neg : bool then B "-" else []) ++ micros_text n) neg (fmt_uint 10 (n / 1000000)) (pad6 (n mod 1000000)) 0 /\
  dec_num (fmt_uint 10 (n / 1000000)) (pad6 (n mod 1000000)) 0 = n /\ dec_den (pad6 (n mod 1000000)) 0 = 1000000.
Proof.
  intros H. pose proof (Z.mod_pos_bound n 1000000 ltac:(lia)) as M. assert (D : 0 <= n / 1000000) by (apply Z.div_pos; lia).
  pose proof (fmt_uint_dec _ D) as [[I1 I2] I3]. split; [|split].
  - exists (if neg then B "-" else []), (B "." ++ pad6 (n mod 1000000)), []. split; [unfold micros_text; rewrite app_nil_r; reflexivity|].
    split; [destruct neg; constructor|]. split; [exact I2|]. split; [constructor; apply pad6_digits; lia|]. split; [|constructor].
    destruct (fmt_uint 10 (n / 1000000)); [congruence|discriminate].
  - unfold dec_num. change (dec_val (?a ++ ?b)) with (dv 0 (a ++ b)). rewrite dv_app, dv_shift, pad6_len, pad6_val by lia. change (dv 0 ?a) with (dec_val a). rewrite I3.
    change (10 ^ Z.of_nat 6) with 1000000. change (10 ^ Z.max 0 0) with 1. pose proof (Z.div_mod n 1000000 ltac:(lia)). lia.
  - unfold dec_den. rewrite pad6_len by lia. reflexivity.
Qed.
Lemma micros_chars neg n : 0 <= n -> Forall dec_char ((if neg : bool then B "-" else []) ++ micros_text n).
Proof.
  intros H. apply Forall_app. split; [destruct neg; [apply (sign_chars _ true); constructor|constructor]|]. unfold micros_text. pose proof (Z.mod_pos_bound n 1000000 ltac:(lia)).
  apply Forall_app. split; [apply digit_chars, fmt_uint_dec, Z.div_pos; lia|]. constructor; [right; cbn; tauto|]. apply digit_chars, pad6_digits. lia.
Qed.
Lemma dec_char_quote c : dec_char c -> c <> dquote.
Proof. intros [[H _]|H] ->; [vm_compute in H; lia|]. cbn in H. repeat destruct H as [H|H]; try discriminate H; destruct H. Qed.
(** What UnmarshalJSON makes of millionths. *)
Lemma unjson_micros old neg n : 0 <= n -> let s := (if neg : bool then B "-" else []) ++ micros_text n in
  float_unjson old s = match parse_float s with Some f => (f, true) | None => (old, false) end.
Proof.
  intros H s. unfold float_unjson. rewrite trim_none by (eapply Forall_impl; [|apply micros_chars; exact H]; cbv beta; apply dec_char_quote).
  assert (Dot : In (ascii_of_nat 46) s). { unfold s, micros_text. apply in_or_app. right. apply in_or_app. right. left. reflexivity. }
  assert (E1 : is_empty s = false) by (destruct s; [destruct Dot|reflexivity]).
  assert (E2 : beqb s (B "0") = false). { apply beqb_neq. intros E. rewrite E in Dot. destruct Dot as [D|[]]; discriminate D. }
  assert (E3 : beqb s (B "NULL") = false). { apply beqb_neq. intros E. rewrite E in Dot. repeat destruct Dot as [D|Dot]; try discriminate D; destruct Dot. }
  rewrite E1, E2, E3. reflexivity.
Qed.
(** ** Survival *)
Notation MIO := 1000000.
Lemma micros_exact F : (exists j, F * MIO = j * unit_) -> fl F -> F < mag_limit -> round_mag (round_even (F * MIO) unit_ * unit_) MIO = F.
Proof. intros [j E] HF L. rewrite E, re_exact by reflexivity. rewrite <- E, (Z.mul_comm F). apply round_mag_exact; [lia|exact HF]. Qed.
Lemma mio_ulp k : 0 <= k -> unit_ <= MIO * 2 ^ k -> 1055 <= k /\ unit_ < MIO * 2 ^ k.
Proof.
  intros K H. assert (1055 <= k). { destruct (Z_le_gt_dec 1055 k) as [C|C]; [exact C|exfalso]. pose proof (Z.pow_le_mono_r 2 k 1054 ltac:(lia) ltac:(lia)). assert (MIO * 2 ^ 1054 < unit_) by reflexivity. lia. }
  split; [assumption|]. pose proof (Z.pow_le_mono_r 2 1055 k ltac:(lia) ltac:(lia)). assert (unit_ < MIO * 2 ^ 1055) by reflexivity. lia.
Qed.
Lemma pow_unit j : 1074 <= j -> exists i, 2 ^ j = i * unit_.
Proof. intros H. exists (2 ^ (j - 1074)). unfold unit_. rewrite <- Z.pow_add_r by lia. f_equal. lia. Qed.
Lemma micros_large F : fl F -> F < mag_limit -> 1055 <= ulp_exp F -> round_mag (round_even (F * MIO) unit_ * unit_) MIO = F.
Proof.
  intros HF L K. assert (U : 0 < unit_) by reflexivity. pose proof (re_near (F * MIO) unit_ U) as N. assert (N0 : 0 <= round_even (F * MIO) unit_) by (apply re_nonneg; destruct HF; lia).
  pose proof (Z.pow_le_mono_r 2 1055 (ulp_exp F) ltac:(lia) K) as P. assert (X : unit_ < MIO * 2 ^ 1055) by reflexivity.
  destruct (Z.eq_dec F (2 ^ (52 + ulp_exp F))) as [E|Ne].
  - apply micros_exact; [|exact HF|exact L]. destruct (pow_unit (52 + ulp_exp F) ltac:(lia)) as [i Ei]. exists (i * MIO). rewrite E at 1. rewrite Ei. ring.
  - apply round_mag_char; [lia|nia|exact HF|lia|lia|]. intros; contradiction.
Qed.
Lemma micros_survive F N : fl F -> F < mag_limit -> 0 <= N -> F = round_mag (N * unit_) MIO -> round_mag (round_even (F * MIO) unit_ * unit_) MIO = F.
Proof.
  intros HF L HN E. assert (U : 0 < unit_) by reflexivity. assert (NU : 0 <= N * unit_) by nia. pose proof (round_mag_half (N * unit_) MIO ltac:(lia) NU) as [H T]. rewrite <- E in H, T.
  destruct (Z_lt_le_dec (2 * Z.abs (N * unit_ - MIO * F)) unit_) as [C|C].
  - assert (round_even (F * MIO) unit_ = N) as ->; [|symmetry; exact E]. apply re_char; [exact U|]. split; [lia|]. intros; lia.
  - apply micros_large; [exact HF|exact L|]. apply mio_ulp; [apply ulp_nonneg|lia].
Qed.
Lemma micros_no_overflow F : fl F -> F < mag_limit -> round_mag (round_even (F * MIO) unit_ * unit_) MIO < mag_limit.
Proof.
  intros HF L. assert (U : 0 < unit_) by reflexivity. pose proof (re_near (F * MIO) unit_ U) as N. set (n := round_even (F * MIO) unit_) in *.
  assert (N0 : 0 <= n) by (apply re_nonneg; destruct HF; lia). destruct (Z_lt_le_dec (round_mag (n * unit_) MIO) mag_limit) as [C|C]; [exact C|exfalso].
  apply overflow in C; [|lia|exact N0]. unfold too_large in C. rewrite (Z.abs_eq n) in C by lia.
  assert (HM : fl max_mag). { apply fl_of; [lia|]. split; [apply Z.leb_le|apply Z.leb_le]; reflexivity. }
  assert (F <= max_mag). { destruct (Z_le_gt_dec F max_mag) as [X|X]; [exact X|]. pose proof (next_le max_mag F HM HF ltac:(lia)) as Y. assert (max_mag + 2 ^ ulp_exp max_mag = mag_limit) by reflexivity. lia. }
  assert (L2 : (2 ^ 1024 - 2 ^ 970) * unit_ = max_mag + 2 ^ 2044) by reflexivity. assert (unit_ < 2 * MIO * 2 ^ 2044) by reflexivity.
  assert (X : MIO * ((2 ^ 1024 - 2 ^ 970) * unit_) <= n * unit_) by (rewrite Z.mul_assoc; apply Z.mul_le_mono_nonneg_r; lia). rewrite L2 in X. lia.
Qed.
(** One JSON round trip of a finite pattern. *)
Definition trip (b : Z) : Z := with_sign (f_neg b) (mag_bits (round_mag (f_micros b * unit_) MIO)).
Lemma f_micros_nonneg b : finite b -> 0 <= f_micros b.
Proof. intros H. unfold f_micros. rewrite (f_mag_spec b H). destruct (mag_of_bits b H) as [[X _] _]. apply re_nonneg; [reflexivity|lia]. Qed.
Lemma json_trip b old : finite b -> float_unjson old (float_json b) = (trip b, true) /\ nearest (f_neg b) (signed (f_neg b) (f_micros b)) MIO (trip b).
Proof.
  intros H. pose proof (proj1 (finite_abs b) H) as [P HI]. pose proof (f_micros_nonneg b H) as N0. destruct (mag_of_bits b H) as (HF & HL & _).
  pose proof (micros_no_overflow _ HF HL) as NO. rewrite <- (f_mag_spec b H) in NO. fold (f_micros b) in NO.
  pose proof (nearest_round (f_neg b) (f_micros b) MIO ltac:(lia) N0 NO) as Nr. split; [|exact Nr].
  unfold float_json, float_string. apply Z.ltb_lt in HI. rewrite HI. rewrite unjson_micros by exact N0.
  destruct (micros_decimal (f_neg b) (f_micros b) N0) as (D1 & D2 & D3). pose proof (decimal_nearest _ _ _ _ _ D1 ltac:(reflexivity)) as R. rewrite D2, D3 in R.
  destruct (parse_float _) as [f|].
  - f_equal. exact (nearest_unique _ _ MIO _ _ ltac:(lia) R Nr).
  - exfalso. apply (overflow _ MIO ltac:(lia) N0) in R. lia.
Qed.
Lemma trip_fix b : finite b -> round_mag (f_micros b * unit_) MIO = magnitude b -> trip b = b.
Proof. intros H E. unfold trip. rewrite E. destruct (mag_of_bits b H) as (_ & _ & ->). symmetry. apply pattern_split, H. Qed.
Lemma max_fl : fl max_mag. Proof. apply fl_of; [lia|]. split; apply Z.leb_le; reflexivity. Qed.
Lemma mag_le_max b : finite b -> magnitude b <= max_mag.
Proof.
  intros H. destruct (mag_of_bits b H) as (HF & HL & _). destruct (Z_le_gt_dec (magnitude b) max_mag) as [X|X]; [exact X|].
  pose proof (next_le max_mag (magnitude b) max_fl HF ltac:(lia)) as Y. assert (max_mag + 2 ^ ulp_exp max_mag = mag_limit) by reflexivity. lia.
Qed.
Lemma max_pattern neg : exists c, finite c /\ (2 ^ 63 <=? c) = neg /\ magnitude c = max_mag.
Proof.
  assert (LM : max_mag < mag_limit) by reflexivity. pose proof (mag_bits_spec _ max_fl LM) as (B1 & B2 & _). assert (B4 : 0 <= mag_bits max_mag < 2 ^ 63) by (pose proof inf_lt; lia).
  pose proof (f_abs_sign neg _ B4) as (S1 & S2 & S3). pose proof (mag_sign neg _ B4) as (M1 & _). exists (with_sign neg (mag_bits max_mag)).
  split; [|split; [exact S3|congruence]]. apply finite_abs. split; [|rewrite S1; lia]. unfold pattern, with_sign. change (2 ^ 64) with (2 * 2 ^ 63). destruct neg; lia.
Qed.
Lemma too_large_max p q : 0 < q -> q * (2 ^ 1024 - 2 ^ 970) <= p -> q * max_mag < p * unit_.
Proof.
  intros Q T. assert (L2 : max_mag < (2 ^ 1024 - 2 ^ 970) * unit_) by reflexivity. apply Z.lt_le_trans with (q * ((2 ^ 1024 - 2 ^ 970) * unit_)); [apply Z.mul_lt_mono_pos_l; assumption|].
  rewrite Z.mul_assoc. apply Z.mul_le_mono_nonneg_r; [|exact T]. apply Z.leb_le. reflexivity.
Qed.
Lemma trip_survive b n : finite b -> 0 <= n -> nearest (f_neg b) (signed (f_neg b) n) MIO b -> trip b = b.
Proof.
  intros H N0 Nr. destruct (mag_of_bits b H) as (HF & HL & HB). destruct (Z_lt_le_dec (round_mag (n * unit_) MIO) mag_limit) as [C|C].
  - pose proof (nearest_round (f_neg b) n MIO ltac:(lia) N0 C) as Nr'. pose proof (nearest_unique _ _ MIO _ _ ltac:(lia) Nr Nr') as E.
    apply trip_fix; [exact H|]. unfold f_micros. rewrite (f_mag_spec b H).
    assert (EM : magnitude b = round_mag (n * unit_) MIO). { assert (P' : 0 <= n * unit_) by (assert (0 < unit_) by reflexivity; nia). pose proof (round_mag_fl (n * unit_) MIO ltac:(lia) P') as HR.
      pose proof (mag_bits_spec _ HR C) as (B1 & B2 & _). rewrite E. rewrite (proj1 (mag_sign (f_neg b) (mag_bits (round_mag (n * unit_) MIO)) ltac:(pose proof inf_lt; lia))). exact B2. }
    exact (micros_survive _ n HF HL N0 EM).
  - apply (overflow n MIO eq_refl N0) in C. unfold too_large in C. rewrite (Z.abs_eq n N0) in C.
    destruct (max_pattern (f_neg b)) as (c & Fc & Sc & Mc). pose proof (mag_le_max b H) as LF.
    destruct Nr as (_ & Sb & Best). destruct (Best c Fc) as [D _]. pose proof (too_large_max n MIO eq_refl C) as NU.
    unfold dist, value in D. rewrite Sc, Mc, Sb in D. fold unit_ in D. unfold signed in D.
    assert (EM : magnitude b = max_mag). { revert D LF NU. clear. destruct (f_neg b); [rewrite Z.mul_opp_l|]; generalize max_mag (n * unit_) (magnitude b); intros; lia. } apply trip_fix; [exact H|]. unfold f_micros. rewrite (f_mag_spec b H), EM.
    apply micros_exact; [|exact max_fl|reflexivity]. exists ((2 ^ 53 - 1) * 2 ^ (2045 - 1074) * MIO). reflexivity.
Qed.
(** ** Integers *)
Lemma int_float_spec n : Z.abs n <= 2 ^ 64 -> nearest (n <? 0) n 1 (int_float n).
Proof.
  intros H. unfold int_float. assert (E : n = signed (n <? 0) (Z.abs n)) by (unfold signed; destruct (n <? 0) eqn:E; [apply Z.ltb_lt in E|apply Z.ltb_ge in E]; lia).
  rewrite E at 2. apply nearest_round; [lia|lia|]. destruct (Z_lt_le_dec (round_mag (Z.abs n * unit_) 1) mag_limit) as [C|C]; [exact C|exfalso].
  apply overflow in C; [|lia|lia]. unfold too_large in C. assert (2 ^ 64 < 1 * (2 ^ 1024 - 2 ^ 970)) by reflexivity. lia.
Qed.
Lemma int_float_exact n : Z.abs n <= 2 ^ 53 -> finite (int_float n) /\ value (int_float n) = n * unit_.
Proof.
  intros H. assert (HF : fl (Z.abs n * unit_)) by (apply fl_of; lia). pose proof (round_mag_exact 1 _ ltac:(lia) HF) as E. rewrite Z.mul_1_l in E.
  destruct (int_float_spec n) as (Fi & Sg & _); [assert (2 ^ 53 <= 2 ^ 64) by (apply Z.leb_le; reflexivity); lia|]. split; [exact Fi|]. unfold value. rewrite Sg.
  assert (L : Z.abs n * unit_ < mag_limit). { assert (2 ^ 53 * unit_ < mag_limit) by reflexivity. assert (0 < unit_) by reflexivity. nia. }
  pose proof (mag_bits_spec _ HF L) as (B1 & B2 & _). unfold int_float. rewrite E, (proj1 (mag_sign (n <? 0) (mag_bits (Z.abs n * unit_)) ltac:(pose proof inf_lt; lia))), B2.
  destruct (n <? 0) eqn:S; [apply Z.ltb_lt in S|apply Z.ltb_ge in S]; [rewrite Z.abs_neq by lia|rewrite Z.abs_eq by lia]; ring.
Qed.
(** ** float32 *)
Lemma pow23_pos : 0 < 2 ^ 23. Proof. reflexivity. Qed.
Lemma widen_spec b : 0 <= b < 2 ^ 32 -> exponent32 b < 255 -> finite (widen b) /\ value (widen b) = value32 b * 2 ^ 925 /\ (2 ^ 63 <=? widen b) = (2 ^ 31 <=? b).
Proof.
  intros H He. unfold widen. cbv zeta. change (2 ^ 32) with (2 * 2 ^ 31) in H. pose proof (Z.mod_pos_bound b (2 ^ 31) ltac:(lia)) as Ra. set (a := b mod 2 ^ 31) in *.
  assert (Eb : b = a \/ b = a + 2 ^ 8 * 2 ^ 23). { change (2 ^ 8 * 2 ^ 23) with (2 ^ 31). destruct (Z_lt_le_dec b (2 ^ 31)) as [C|C]; [left; unfold a; symmetry; apply Z.mod_small; lia|right].
    unfold a. assert (X : b mod 2 ^ 31 = (b - 2 ^ 31) mod 2 ^ 31) by (replace (b - 2 ^ 31) with (b + (-1) * 2 ^ 31) by ring; rewrite Z.mod_add by lia; reflexivity). rewrite X, Z.mod_small by lia. lia. }
  clearbody a. assert (Q0 : 0 <= a / 2 ^ 23 < 2 ^ 8). { split; [apply Z.div_pos; lia|]. apply Z.div_lt_upper_bound; [lia|]. change (2 ^ 23 * 2 ^ 8) with (2 ^ 31). lia. }
  assert (E1 : exponent32 b = a / 2 ^ 23). { unfold exponent32. destruct Eb as [-> | ->]; [apply Z.mod_small, Q0|]. rewrite Z.div_add by lia. rewrite <- (Z.mul_1_l (2 ^ 8)) at 1. rewrite Z.mod_add by lia. apply Z.mod_small, Q0. }
  assert (E2 : fraction32 b = a mod 2 ^ 23). { unfold fraction32. destruct Eb as [-> | ->]; [reflexivity|]. apply Z.mod_add. lia. }
  pose proof (Z.div_mod a (2 ^ 23) ltac:(lia)) as D. pose proof (Z.mod_pos_bound a (2 ^ 23) pow23_pos) as M.
  assert (EM : magnitude32 b = (a - Z.max 0 (a / 2 ^ 23 - 1) * 2 ^ 23) * 2 ^ Z.max 0 (a / 2 ^ 23 - 1)).
  { unfold magnitude32. rewrite E1, E2. set (q := a / 2 ^ 23) in *. set (r := a mod 2 ^ 23) in *. clearbody q r. destruct (q =? 0) eqn:E0; [apply Z.eqb_eq in E0|apply Z.eqb_neq in E0].
    - rewrite Z.max_l by lia. rewrite Z.pow_0_r. lia.
    - rewrite Z.max_r by lia. f_equal. lia. }
  rewrite E1 in He. assert (A : a < 255 * 2 ^ 23) by nia. apply Z.ltb_lt in A. rewrite A. rewrite <- EM. clear EM.
  set (x := Z.max 0 (a / 2 ^ 23 - 1)).
  assert (HF : fl (magnitude32 b * 2 ^ 925) /\ magnitude32 b * 2 ^ 925 < mag_limit).
  { unfold magnitude32. rewrite E1, E2. set (q := a / 2 ^ 23) in *. set (r := a mod 2 ^ 23) in *. clearbody q r. assert (S53 : 2 * 2 ^ 23 <= 2 ^ 53) by (apply Z.leb_le; reflexivity). destruct (q =? 0) eqn:E0; [apply Z.eqb_eq in E0|apply Z.eqb_neq in E0].
    - split; [apply fl_of; lia|]. assert (2 ^ 23 * 2 ^ 925 < mag_limit) by reflexivity. assert (0 < 2 ^ 925) by reflexivity. nia.
    - rewrite <- Z.mul_assoc, <- pow2_add by lia. split; [apply fl_of; lia|]. assert (2 * 2 ^ 23 * 2 ^ (254 + 925) < mag_limit) by reflexivity.
      pose proof (Z.pow_le_mono_r 2 (q - 1 + 925) (254 + 925) ltac:(lia) ltac:(lia)). pose proof (pow2_pos (q - 1 + 925) ltac:(lia)). nia. }
  destruct HF as [HF HL]. pose proof (mag_bits_spec _ HF HL) as (B1 & B2 & _). assert (B4 : 0 <= mag_bits (magnitude32 b * 2 ^ 925) < 2 ^ 63) by (pose proof inf_lt; lia).
  pose proof (f_abs_sign (2 ^ 31 <=? b) _ B4) as (S1 & S2 & S3). pose proof (mag_sign (2 ^ 31 <=? b) _ B4) as (M1 & _).
  split; [|split; [|exact S3]].
  - apply finite_abs. split; [|rewrite S1; lia]. unfold pattern, with_sign. change (2 ^ 64) with (2 * 2 ^ 63). destruct (2 ^ 31 <=? b); lia.
  - unfold value, value32. rewrite S3, M1, B2. destruct (2 ^ 31 <=? b); ring.
Qed.
(** ** Order *)
Lemma round_mag_mono p p' q : 0 < q -> 0 <= p <= p' -> round_mag p q <= round_mag p' q.
Proof.
  intros Q [P L]. pose proof (round_mag_best p q (round_mag p' q) Q P (round_mag_fl p' q Q ltac:(lia))) as B1.
  pose proof (round_mag_best p' q (round_mag p q) Q ltac:(lia) (round_mag_fl p q Q P)) as B2.
  destruct (Z_le_gt_dec (round_mag p q) (round_mag p' q)) as [C|C]; [exact C|exfalso].
  assert (p = p') as <- by nia. lia.
Qed.
Lemma trip_mag b : finite b -> magnitude (trip b) = round_mag (f_micros b * unit_) MIO /\ finite (trip b) /\ (2 ^ 63 <=? trip b) = f_neg b.
Proof.
  intros H. pose proof (json_trip b 0 H) as [_ (F1 & F2 & _)]. split; [|split; [exact F1|exact F2]]. pose proof (f_micros_nonneg b H) as N0. destruct (mag_of_bits b H) as (HF & HL & _).
  pose proof (micros_no_overflow _ HF HL) as NO. rewrite <- (f_mag_spec b H) in NO. fold (f_micros b) in NO.
  pose proof (mag_bits_spec _ (round_mag_fl (f_micros b * unit_) MIO eq_refl ltac:(assert (0 < unit_) by reflexivity; nia)) NO) as (B1 & B2 & _).
  unfold trip. rewrite (proj1 (mag_sign (f_neg b) (mag_bits (round_mag (f_micros b * unit_) MIO)) ltac:(pose proof inf_lt; lia))). exact B2.
Qed.
Lemma trip_mag_mono a b : finite a -> finite b -> magnitude a <= magnitude b -> magnitude (trip a) <= magnitude (trip b).
Proof.
  intros Fa Fb L. rewrite (proj1 (trip_mag a Fa)), (proj1 (trip_mag b Fb)). apply round_mag_mono; [reflexivity|]. pose proof (f_micros_nonneg a Fa). assert (U : 0 < unit_) by reflexivity.
  assert (f_micros a <= f_micros b); [|nia]. unfold f_micros. rewrite (f_mag_spec a Fa), (f_mag_spec b Fb). apply re_mono; [exact U|lia].
Qed.
Lemma mag_nonneg b : finite b -> 0 <= magnitude b. Proof. intros H. exact (proj1 (proj1 (mag_of_bits b H))). Qed.
Lemma trip_mono a b : finite a -> finite b -> value a <= value b -> value (trip a) <= value (trip b).
Proof.
  intros Fa Fb L. destruct (trip_mag a Fa) as (_ & Fa' & Sa). destruct (trip_mag b Fb) as (_ & Fb' & Sb). pose proof (mag_nonneg a Fa). pose proof (mag_nonneg b Fb). pose proof (mag_nonneg _ Fa'). pose proof (mag_nonneg _ Fb').
  unfold value in *. change (2 ^ 63 <=? a) with (f_neg a) in *. change (2 ^ 63 <=? b) with (f_neg b) in *. rewrite Sa, Sb. destruct (f_neg a), (f_neg b).
  - pose proof (trip_mag_mono b a Fb Fa ltac:(lia)). lia.
  - lia.
  - assert (magnitude a = 0) by lia. assert (magnitude b = 0) by lia. pose proof (trip_mag_mono a b Fa Fb ltac:(lia)). pose proof (trip_mag_mono b a Fb Fa ltac:(lia)).
    assert (Z0 : magnitude (trip b) = 0). { rewrite (proj1 (trip_mag b Fb)). unfold f_micros. rewrite (f_mag_spec b Fb), H4. reflexivity. } lia.
  - exact (trip_mag_mono a b Fa Fb L).
Qed.
(** ** Accepted texts *)
Lemma flt_digit_dec c d : flt_digit false c = Some d -> is_digit c.
Proof. unfold flt_digit. destruct (dec_digit c) eqn:E; [intros _; exact (proj1 (digit_inv c _ E))|discriminate]. Qed.
Notation under := (ascii_of_nat 95).
Lemma chr_eq n c : (n < 256)%nat -> chr n c = true -> c = ascii_of_nat n.
Proof. intros L H. apply chr_spec in H. rewrite <- H. symmetry. apply ascii_nat_embedding. Qed.
Lemma rm_inv s : ~ In under s -> forall dot saw m f m' f' saw' und' r, read_mant false dot saw false m f s = (m', f', saw', und', r) ->
  und' = false /\ exists ip fr fp, s = ip ++ fr ++ r /\ Forall is_digit ip /\ frac_text fr fp /\ (saw' = true -> saw = true \/ ip ++ fp <> []).
Proof.
  induction s as [|c s IH]; intros NU dot saw m f m' f' saw' und' r H.
  - injection H as <- <- <- <- <-. split; [reflexivity|]. exists [], [], []. repeat split; [constructor|constructor|auto].
  - cbn [read_mant] in H. destruct (chr 95 c) eqn:C95; [exfalso; apply NU; left; apply chr_eq; [lia|exact C95]|].
    assert (NU' : ~ In under s) by (intros X; apply NU; right; exact X).
    destruct (chr 46 c) eqn:C46.
    + destruct dot; [injection H as <- <- <- <- <-; split; [reflexivity|]; exists [], [], []; repeat split; [constructor|constructor|auto]|].
      apply chr_eq in C46; [|lia]. subst c.
      assert (G : forall s dot saw m f m' f' saw' und' r, dot = true -> ~ In under s -> read_mant false dot saw false m f s = (m', f', saw', und', r) ->
        und' = false /\ exists ds, s = ds ++ r /\ Forall is_digit ds /\ (saw' = true -> saw = true \/ ds <> [])).
      { clear. induction s as [|c s IH]; intros dot saw m f m' f' saw' und' r Ed NU H; subst dot.
        - injection H as <- <- <- <- <-. split; [reflexivity|]. exists []. repeat split; [constructor|auto].
        - cbn [read_mant] in H. destruct (chr 95 c) eqn:C95; [exfalso; apply NU; left; apply chr_eq; [lia|exact C95]|].
          destruct (chr 46 c) eqn:C46; [injection H as <- <- <- <- <-; split; [reflexivity|]; exists []; repeat split; [constructor|auto]|].
          destruct (flt_digit false c) eqn:FD; [|injection H as <- <- <- <- <-; split; [reflexivity|]; exists []; repeat split; [constructor|auto]].
          destruct (IH _ _ _ _ _ _ _ _ _ eq_refl (fun X => NU (or_intror X)) H) as (-> & ds & -> & Hd & _). split; [reflexivity|]. exists (c :: ds). repeat split; [constructor; [exact (flt_digit_dec c z FD)|exact Hd]|]. intros _. right. discriminate. }
      destruct (G s true saw m f m' f' saw' und' r eq_refl NU' H) as (-> & ds & -> & Hd & Hs). split; [reflexivity|]. exists [], (B "." ++ ds), ds. repeat split; [constructor|constructor; exact Hd|exact Hs].
    + destruct (flt_digit false c) eqn:FD; [|injection H as <- <- <- <- <-; split; [reflexivity|]; exists [], [], []; repeat split; [constructor|constructor|auto]].
      destruct (IH NU' _ _ _ _ _ _ _ _ _ H) as (-> & ip & fr & fp & -> & Hi & Hf & _). split; [reflexivity|]. exists (c :: ip), fr, fp. repeat split; [constructor; [exact (flt_digit_dec c z FD)|exact Hi]|exact Hf|]. intros _. right. discriminate.
Qed.
Lemma rx_inv s : ~ In under s -> forall und e e' und' r, read_exp und e s = (e', und', r) -> und' = und /\ exists ds, s = ds ++ r /\ Forall is_digit ds.
Proof.
  induction s as [|c s IH]; intros NU und e e' und' r H.
  - injection H as <- <- <-. split; [reflexivity|]. exists []. repeat split; constructor.
  - cbn [read_exp] in H. destruct (chr 95 c) eqn:C95; [exfalso; apply NU; left; apply chr_eq; [lia|exact C95]|].
    destruct (dec_digit c) as [d|] eqn:D; [|injection H as <- <- <-; split; [reflexivity|]; exists []; repeat split; constructor].
    destruct (IH (fun X => NU (or_intror X)) _ _ _ _ _ H) as (-> & ds & -> & Hd). split; [reflexivity|]. exists (c :: ds). split; [reflexivity|]. constructor; [exact (proj1 (digit_inv c d D))|exact Hd].
Qed.
Lemma read_sign_inv s neg r : read_sign s = (neg, r) -> exists t, s = t ++ r /\ sign_text t neg.
Proof.
  destruct s as [|c s]; cbn [read_sign]; [intros [= <- <-]; exists []; split; [reflexivity|constructor]|].
  destruct (chr 43 c) eqn:E1; [intros [= <- <-]; apply chr_eq in E1; [|lia]; subst c; exists (B "+"); split; [reflexivity|constructor]|].
  destruct (chr 45 c) eqn:E2; [intros [= <- <-]; apply chr_eq in E2; [|lia]; subst c; exists (B "-"); split; [reflexivity|constructor]|].
  intros [= <- <-]. exists []. split; [reflexivity|constructor].
Qed.
Lemma lower_e c : chr 101 (lower_ascii c) = true -> In c (B "eE").
Proof.
  intros H. apply chr_spec in H. unfold lower_ascii in H. destruct (Nat.leb 65 (nat_of_ascii c) && Nat.leb (nat_of_ascii c) 90) eqn:E.
  - apply andb_true_iff in E as [E1 E2]. apply Nat.leb_le in E1, E2. rewrite nat_ascii_embedding in H by lia. right. left. rewrite <- (ascii_nat_embedding c). replace (nat_of_ascii c) with 69%nat by lia. reflexivity.
  - left. rewrite <- (ascii_nat_embedding c), H. reflexivity.
Qed.
Lemma parse_float_shape s b : parse_float s = Some b -> ~ In under s ->
  (exists t neg u, s = t ++ u /\ sign_text t neg /\ (equal_fold u (B "inf") = true \/ equal_fold u (B "infinity") = true) /\ b = with_sign neg inf_bits) \/
  (equal_fold s (B "nan") = true /\ b = nan_bits) \/
  (exists t neg x u, s = t ++ ascii_of_nat 48 :: x :: u /\ sign_text t neg /\ lower_ascii x = ascii_of_nat 120) \/
  (exists neg ip fp x, decimal s neg ip fp x).
Proof.
  intros H NU. unfold parse_float in H. destruct (read_sign s) as [neg t] eqn:RS. apply read_sign_inv in RS as (sg & -> & Hs).
  destruct (equal_fold t (B "inf") || equal_fold t (B "infinity")) eqn:EI.
  { left. exists sg, neg, t. repeat split; [exact Hs|apply orb_true_iff; exact EI|congruence]. }
  destruct (equal_fold (sg ++ t) (B "nan")) eqn:EN; [right; left; split; [reflexivity|congruence]|]. right. right.
  set (hex := match t with z :: x :: _ :: _ => chr 48 z && chr 120 (lower_ascii x) | _ => false end) in *. destruct hex eqn:EH.
  { left. destruct t as [|z [|x [|w u]]]; try discriminate EH. apply andb_true_iff in EH as [E1 E2]. apply chr_eq in E1, E2; try lia. subst z. exists sg, neg, x, (w :: u). repeat split; assumption. }
  right. cbv zeta iota in H. destruct (read_float false t) as [[m e]|] eqn:RF; [|discriminate H]. clear H hex EH.
  assert (NT : ~ In under t) by (intros X; apply NU, in_or_app; right; exact X).
  unfold read_float in RF. destruct (read_mant false false false false 0 0 t) as [[[[m' f'] saw'] und'] r] eqn:RM.
  destruct (rm_inv t NT _ _ _ _ _ _ _ _ _ RM) as (-> & ip & fr & fp & -> & Hi & Hf & Hn). destruct saw'; [|discriminate RF]. cbn [negb] in RF. cbv zeta in RF.
  destruct (Hn eq_refl) as [X|Ne]; [discriminate X|]. clear Hn RM. destruct r as [|c r].
  { exists neg, ip, fp, 0. exists sg, fr, []. repeat split; try assumption. constructor. }
  destruct (chr 101 (lower_ascii c)) eqn:EC; [|discriminate RF]. destruct (read_sign r) as [en r2] eqn:RS. apply read_sign_inv in RS as (et & -> & Het).
  destruct r2 as [|d r2]; [discriminate RF|]. destruct (dec_digit d) as [dd|] eqn:DD; [|discriminate RF].
  destruct (read_exp false 0 (d :: r2)) as [[e' und'] r3] eqn:RX.
  assert (NX : ~ In under (d :: r2)). { intros X. apply NT, in_or_app. right. apply in_or_app. right. right. apply in_or_app. right. exact X. }
  destruct (rx_inv _ NX _ _ _ _ _ RX) as (-> & ds & Eds & Hds). destruct (is_empty r3) eqn:E3; [|discriminate RF]. destruct r3; [|discriminate E3]. rewrite app_nil_r in Eds.
  exists neg, ip, fp, (signed en (dec_val ds)). exists sg, fr, (c :: et ++ ds). rewrite Eds. repeat split; try assumption. constructor; [apply lower_e, EC|exact Het|]. split; [rewrite <- Eds; discriminate|exact Hds].
Qed.
