(** Theorems about the type Float: C87, C166 - C171. *)
From Verif Require Import GoBase GoBaseFacts IdModel IdSpec IdProofs FloatModel FloatSpec FloatProofs.
Open Scope Z_scope.
Local Opaque Z.pow.

(** ** C87 *)
(** 2^-24 = 5.96e-8 becomes zero. *)
Theorem C87_float_json_refuted : exists b, finite b /\ value b <> 0 /\ float_json b = B "0.000000" /\ forall old, float_unjson old (float_json b) = (0, true).
Proof. exists 4499096027743125504. split; [repeat split; vm_compute; discriminate|]. split; [vm_compute; discriminate|]. split; [vm_compute; reflexivity|]. intros old. vm_compute. reflexivity. Qed.
(** Nevertheless decoding succeeds for every finite value: the sign is kept and
    the error is at most a millionth (values are counted in 2^-1074).  The text
    has the nearest number of millionths [n], the result is the float64 nearest
    to n/10^6. *)
Theorem C87_near_partial : forall b old, finite b -> exists b' n,
  float_unjson old (float_json b) = (b', true) /\ finite b' /\ (negative b' <-> negative b) /\
  1000000 * Z.abs (value b' - value b) <= 2 ^ 1074 /\
  0 <= n /\ 2 * Z.abs (signed (2 ^ 63 <=? b) n * 2 ^ 1074 - 1000000 * value b) <= 2 ^ 1074 /\ nearest (2 ^ 63 <=? b) (signed (2 ^ 63 <=? b) n) 1000000 b'.
Proof.
  intros b old H. destruct (json_trip b old H) as [J N]. exists (trip b), (f_micros b). split; [exact J|]. pose proof N as (Fb & Sb & Best). split; [exact Fb|].
  split. { unfold negative. rewrite <- !Z.leb_le. rewrite Sb. unfold f_neg. tauto. }
  pose proof (f_micros_nonneg b H) as N0. destruct (Best b H) as [D _].
  assert (R : 2 * Z.abs (signed (2 ^ 63 <=? b) (f_micros b) * 2 ^ 1074 - 1000000 * value b) <= 2 ^ 1074).
  { pose proof (re_near (magnitude b * 1000000) unit_ eq_refl) as R. rewrite <- (f_mag_spec b H) in R. fold (f_micros b) in R. rewrite (f_mag_spec b H) in R. fold unit_. unfold value, signed.
    destruct (2 ^ 63 <=? b); [replace (- f_micros b * unit_ - 1000000 * - magnitude b) with (- (f_micros b * unit_ - magnitude b * 1000000)) by ring; rewrite Z.abs_opp|];
      (rewrite <- Z.abs_opp; match goal with |- 2 * Z.abs ?x <= _ => replace x with (magnitude b * 1000000 - f_micros b * unit_) by ring end; exact R). }
  split; [|split; [exact N0|split; [exact R|exact N]]].
  unfold dist in D. change (f_neg b) with (2 ^ 63 <=? b) in D. revert D R. generalize (signed (2 ^ 63 <=? b) (f_micros b) * 2 ^ 1074) (2 ^ 1074) (value b) (value (trip b)). intros. lia.
Qed.
(** A finite value survives exactly when it is the float64 nearest to some
    decimal with six fractional digits. *)
Theorem C87_survives_iff_partial : forall b old, finite b ->
  float_unjson old (float_json b) = (b, true) <-> exists n, 0 <= n /\ nearest (2 ^ 63 <=? b) (signed (2 ^ 63 <=? b) n) 1000000 b.
Proof.
  intros b old H. destruct (json_trip b old H) as [J N]. rewrite J. split.
  - intros E. injection E as E. exists (f_micros b). split; [apply f_micros_nonneg, H|]. rewrite E in N. exact N.
  - intros (n & N0 & Nn). f_equal. exact (trip_survive b n H N0 Nn).
Qed.
(** So what has been through JSON once is stable. *)
Theorem C87_second_trip_partial : forall b old b', finite b -> float_unjson old (float_json b) = (b', true) -> forall old', float_unjson old' (float_json b') = (b', true).
Proof.
  intros b old b' H E old'. destruct (json_trip b old H) as [J N]. rewrite J in E. injection E as <-. destruct N as (F & S & Best).
  apply C87_survives_iff_partial; [exact F|]. exists (f_micros b). split; [apply f_micros_nonneg, H|]. rewrite S. split; [exact F|split; [exact S|exact Best]].
Qed.
(** All multiples of a millionth that are float64, in particular integers, and
    all values from 2^33 on survive. *)
Theorem C87_multiples_partial : forall b old j, finite b -> value b * 1000000 = j * 2 ^ 1074 -> float_unjson old (float_json b) = (b, true).
Proof.
  intros b old j H E. destruct (json_trip b old H) as [J _]. rewrite J. f_equal. apply trip_fix; [exact H|]. unfold f_micros. rewrite (f_mag_spec b H).
  destruct (mag_of_bits b H) as (HF & HL & _). apply micros_exact; [|exact HF|exact HL]. unfold value in E. destruct (2 ^ 63 <=? b); [exists (- j)|exists j]; fold unit_ in E; lia.
Qed.
Theorem C87_integers_partial : forall b old i, finite b -> value b = i * 2 ^ 1074 -> float_unjson old (float_json b) = (b, true).
Proof. intros b old i H E. apply (C87_multiples_partial b old (i * 1000000) H). rewrite E. ring. Qed.
Theorem C87_large_partial : forall b old, finite b -> 2 ^ 33 * 2 ^ 1074 <= Z.abs (value b) -> float_unjson old (float_json b) = (b, true).
Proof.
  intros b old H L. destruct (json_trip b old H) as [J _]. rewrite J. f_equal. apply trip_fix; [exact H|]. unfold f_micros. rewrite (f_mag_spec b H).
  destruct (mag_of_bits b H) as (HF & HL & _). apply micros_large; [exact HF|exact HL|]. destruct HF as [M0 _]. assert (L' : 2 ^ (52 + 1055) <= magnitude b).
  { change (2 ^ (52 + 1055)) with (2 ^ 33 * 2 ^ 1074). revert L. unfold value. generalize (2 ^ 33 * 2 ^ 1074) (magnitude b) M0. intros. destruct (2 ^ 63 <=? b); lia. }
  rewrite <- (proj2 (ulp_range (2 ^ (52 + 1055)) 1055 ltac:(discriminate) ltac:(lia)) ltac:(split; [right; apply Z.le_refl|reflexivity])). apply ulp_mono. split; [discriminate|exact L'].
Qed.
(** 0.1 survives, 0.123132 too; 1/3 does not. *)
Example C87_ex : float_json 4591870180066957722 = B "0.100000" /\ float_unjson 0 (B "0.100000") = (4591870180066957722, true) /\
  float_unjson 0 (float_json 4593537016332243071) = (4593537016332243071, true) /\ finite 4599676419421066581 /\
  float_unjson 0 (float_json 4599676419421066581) = (4599676413416267078, true) /\ float_json 13827852295878370918 = B "-0.700000".
Proof.
  split; [vm_compute; reflexivity|]. split; [vm_compute; reflexivity|]. split; [vm_compute; reflexivity|].
  split; [split; [split; vm_compute; congruence|vm_compute; congruence]|]. split; vm_compute; reflexivity.
Qed.

(** ** C166 *)
(** A decimal text (exponents below 100000) in a column or in JSON. *)
Theorem C166_scan : forall s neg ip fp x old, decimal s neg ip fp x -> Z.abs x < 100000 ->
  (exists b, float_scan old (ABytes s) = (b, true) /\ nearest neg (signed neg (dec_num ip fp x)) (dec_den fp x) b /\ ~ too_large (dec_num ip fp x) (dec_den fp x)) \/
  (float_scan old (ABytes s) = (old, false) /\ too_large (dec_num ip fp x) (dec_den fp x)).
Proof.
  intros s neg ip fp x old H Hx. pose proof (decimal_nearest s neg ip fp x H Hx) as N. pose proof (decimal_range s neg ip fp x H Hx) as R. unfold float_scan. destruct (parse_float s) as [b|]; [left; exists b; split; [reflexivity|split; [exact N|intros T; apply R in T; discriminate T]]|right; split; [reflexivity|exact N]].
Qed.
Theorem C166_json : forall s q neg ip fp x old, decimal s neg ip fp x -> Z.abs x < 100000 -> q = [] \/ q = [dquote] ->
  (exists b, float_unjson old (q ++ s ++ q) = (b, true) /\ nearest neg (signed neg (dec_num ip fp x)) (dec_den fp x) b /\ ~ too_large (dec_num ip fp x) (dec_den fp x)) \/
  (float_unjson old (q ++ s ++ q) = (old, false) /\ too_large (dec_num ip fp x) (dec_den fp x)).
Proof.
  intros s q neg ip fp x old H Hx Hq. pose proof (decimal_nearest s neg ip fp x H Hx) as N. pose proof (decimal_range s neg ip fp x H Hx) as R.
  assert (Ch : Forall (fun c => c <> dquote) s). { destruct H as (t & fr & ex & -> & Ht & Hi & Hf & _ & He). eapply Forall_impl; [apply dec_char_quote|]. apply Forall_app. split; [exact (sign_chars t neg Ht)|]. exact (decimal_chars ip fr fp ex x Hi Hf He). }
  assert (T : trim [dquote] (q ++ s ++ q) = s) by (destruct Hq as [-> | ->]; [rewrite app_nil_r; apply trim_none, Ch|apply trim_quoted, Ch]).
  unfold float_unjson. rewrite T.
  assert (Ne : is_empty s = false). { destruct H as (t & fr & ex & -> & Ht & Hi & Hf & Ne & He). destruct t; [|reflexivity]. destruct ip; [|reflexivity]. inversion Hf; subst; [contradiction Ne; reflexivity|reflexivity]. }
  assert (Nu : beqb s (B "NULL") = false). { apply beqb_neq. intros ->. destruct H as (t & fr & ex & E & Ht & Hi & Hf & _ & He).
    assert (Ch' : Forall dec_char (B "NULL")) by (rewrite E; apply Forall_app; split; [exact (sign_chars t neg Ht)|exact (decimal_chars ip fr fp ex x Hi Hf He)]).
    inversion Ch' as [|? ? [[X Y]|X] _]; subst; [vm_compute in Y; lia|]. cbn in X. repeat destruct X as [X|X]; try discriminate X. destruct X. }
  rewrite Ne, Nu. destruct (beqb s (B "0")) eqn:Z0.
  - left. exists 0. split; [reflexivity|]. apply beqb_eq in Z0. rewrite Z0 in N. change (parse_float (B "0")) with (Some 0) in N. split; [exact N|]. intros T2. apply R in T2. rewrite Z0 in T2. discriminate T2.
  - cbn [orb]. destruct (parse_float s) as [b|]; [left; exists b; split; [reflexivity|split; [exact N|intros T2; apply R in T2; discriminate T2]]|right; split; [reflexivity|exact N]].
Qed.
(** The two cases exclude each other. *)
Theorem C166_range : forall neg p q b, 0 < q -> 0 <= p -> nearest neg (signed neg p) q b -> too_large p q -> magnitude b = (2 ^ 53 - 1) * 2 ^ 2045.
Proof.
  intros neg p q b Q P (Fb & Sb & Best) T. destruct (max_pattern neg) as (c & Fc & Sc & Mc). fold max_mag.
  pose proof (mag_le_max b Fb) as LF. destruct (Best c Fc) as [D _]. unfold too_large in T. rewrite (Z.abs_eq p P) in T. unfold dist, value in D. rewrite Sc, Mc, Sb in D. fold unit_ in D.
  pose proof (too_large_max p q Q T) as NU. unfold signed in D. revert D NU Q LF. clear. destruct neg; [rewrite Z.mul_opp_l|]; generalize max_mag (p * unit_) (magnitude b); intros; nia.
Qed.
Example C166_ex : decimal (B "-12.5e-1") true (B "12") (B "5") (-1) /\ float_scan 7 (ABytes (B "-12.5e-1")) = (13831680355561635840, true) /\
  float_scan 7 (ABytes (B "1.8e308")) = (7, false) /\ float_scan 7 (ABytes (B "1e-400")) = (0, true).
Proof.
  split; [|split; [vm_compute; reflexivity|split; vm_compute; reflexivity]]. exists (B "-"), (B ".5"), (B "e-1"). split; [reflexivity|]. split; [constructor|].
  assert (D : forall n, (48 <= n <= 57)%nat -> is_digit (ascii_of_nat n)) by (intros n Hn; unfold is_digit; rewrite nat_ascii_embedding; lia).
  split; [constructor; [apply (D 49%nat); lia|constructor; [apply (D 50%nat); lia|constructor]]|]. split; [apply (ft_dot (B "5")); constructor; [apply (D 53%nat); lia|constructor]|].
  split; [discriminate|]. apply (et_exp (ascii_of_nat 101) (B "-") true (B "1")); [left; reflexivity|constructor|]. split; [discriminate|]. constructor; [apply (D 49%nat); lia|constructor].
Qed.

(** ** C167 *)
(** Whatever the text, a failed Scan or UnmarshalJSON leaves the destination alone. *)
Theorem C167_error_keeps : forall old x data, (snd (float_scan old x) = false -> fst (float_scan old x) = old) /\ (snd (float_unjson old data) = false -> fst (float_unjson old data) = old).
Proof.
  intros old x data. split.
  - unfold float_scan. destruct x; cbn [snd fst]; try reflexivity; try discriminate. destruct (parse_float s); cbn; [discriminate|reflexivity].
  - unfold float_unjson. cbv zeta. destruct (_ || _ || _); [discriminate|]. destruct (parse_float _); cbn; [discriminate|reflexivity].
Qed.
(** Without underscores, only infinities, NaN, hexadecimal literals and decimal
    literals are accepted. *)
Theorem C167_accepts_only : forall s old b, float_scan old (ABytes s) = (b, true) -> ~ In (ascii_of_nat 95) s ->
  (exists t neg u, s = t ++ u /\ sign_text t neg /\ (equal_fold u (B "inf") = true \/ equal_fold u (B "infinity") = true) /\ infinite b /\ (negative b <-> neg = true)) \/
  (equal_fold s (B "nan") = true /\ nan b) \/
  (exists t neg x u, s = t ++ ascii_of_nat 48 :: x :: u /\ sign_text t neg /\ (x = ascii_of_nat 120 \/ x = ascii_of_nat 88)) \/
  (exists neg ip fp x, decimal s neg ip fp x).
Proof.
  intros s old b H NU. unfold float_scan in H. destruct (parse_float s) as [f|] eqn:E; [|congruence]. injection H as <-.
  destruct (parse_float_shape s f E NU) as [(t & neg & u & A & B' & C & D)|[(A & C)|[(t & neg & x & u & A & B' & C)|D]]].
  - left. exists t, neg, u. split; [exact A|]. split; [exact B'|]. split; [exact C|]. subst f. destruct neg; (split; [repeat split; vm_compute; try reflexivity; discriminate|]); unfold negative; split; intros X; try reflexivity; try (vm_compute; discriminate); try discriminate X; vm_compute in X; contradiction X; reflexivity.
  - right. left. split; [exact A|]. subst f. repeat split; vm_compute; try reflexivity; discriminate.
  - right. right. left. exists t, neg, x, u. split; [exact A|]. split; [exact B'|]. unfold lower_ascii in C. destruct (Nat.leb 65 (nat_of_ascii x) && Nat.leb (nat_of_ascii x) 90) eqn:R; [right|left; exact C].
    apply andb_true_iff in R as [R1 R2]. apply Nat.leb_le in R1, R2. rewrite <- (ascii_nat_embedding x). f_equal. apply (f_equal nat_of_ascii) in C. rewrite !nat_ascii_embedding in C by lia. lia.
  - right. right. right. exact D.
Qed.
Example C167_ex : map (fun s => snd (float_scan 0 (ABytes (B s)))) ["Infinity"; "-inf"; "NaN"; "0x1p-2"; "1_000"; ".5"; "5."]%string = repeat true 7 /\
  map (fun s => snd (float_scan 0 (ABytes (B s)))) [""; "."; "+nan"; "1e"; "0x1"; "1__0"; " 1"; "1,5"; "1.2.3"]%string = repeat false 9.
Proof. split; vm_compute; reflexivity. Qed.

(** ** C168 *)
Theorem C168_integer_refuted : exists n, 0 <= n < 2 ^ 63 /\ forall old, value (fst (float_scan old (AInt64 n))) <> n * 2 ^ 1074.
Proof. exists (2 ^ 53 + 1). split; [split; vm_compute; congruence|]. intros old. vm_compute. discriminate. Qed.
(** An integer becomes the nearest float64, and itself up to 2^53. *)
Theorem C168_integer_partial : forall n old, Z.abs n <= 2 ^ 64 -> Forall (fun x => exists b, float_scan old x = (b, true) /\ nearest (n <? 0) n 1 b /\ (Z.abs n <= 2 ^ 53 -> value b = n * 2 ^ 1074)) [AInt n; AInt64 n; AUint n; AUint64 n].
Proof.
  intros n old H. assert (G : exists b, int_float n = b /\ nearest (n <? 0) n 1 b /\ (Z.abs n <= 2 ^ 53 -> value b = n * 2 ^ 1074)).
  { exists (int_float n). split; [reflexivity|]. split; [apply int_float_spec, H|]. intros L. exact (proj2 (int_float_exact n L)). }
  destruct G as (b & E & G). repeat constructor; exists b; (split; [unfold float_scan; rewrite E; reflexivity|exact G]).
Qed.
Example C168_ex : fst (float_scan 0 (AInt64 (-3))) = 13837309855095848960 /\ fst (float_scan 0 (AUint64 (2 ^ 64 - 1))) = 4895412794951729152. Proof. split; vm_compute; reflexivity. Qed.

(** ** C169 *)
Theorem C169_float32 : forall b old, 0 <= b < 2 ^ 32 -> exponent32 b < 255 ->
  exists f, float_scan old (AFloat32 b) = (f, true) /\ finite f /\ value f = value32 b * 2 ^ 925 /\ (negative f <-> 2 ^ 31 <= b).
Proof.
  intros b old H E. destruct (widen_spec b H E) as (A & B' & C). exists (widen b). split; [reflexivity|]. split; [exact A|]. split; [exact B'|]. unfold negative. rewrite <- !Z.leb_le, C. tauto.
Qed.
Theorem C169_float64 : forall b old, float_scan old (AFloat b) = (b, true).
Proof. reflexivity. Qed.
Example C169_ex : value32 1036831949 = 13421773 * 2 ^ 122 /\ fst (float_scan 0 (AFloat32 1036831949)) = 4591870180174331904. Proof. split; vm_compute; reflexivity. Qed.

(** ** C170 *)
Theorem C170_json_refuted : exists b, pattern b /\ float_json b = B "NaN" /\ ~ json_number (float_json b).
Proof.
  exists (2047 * 2 ^ 52 + 1). split; [split; vm_compute; congruence|]. split; [reflexivity|]. change (float_json _) with (B "NaN"). intros (t & ip & fr & fp & E & Ht & ((Ne & Hi) & _) & _).
  destruct ip as [|c ip]; [congruence|]. inversion Hi as [|? ? [X Y] _]; subst. destruct Ht as [-> | ->]; [|discriminate E]. injection E as <- _. vm_compute in Y. lia.
Qed.
Theorem C170_json_partial : forall b, finite b -> json_number (float_json b).
Proof.
  intros b H. pose proof (proj1 (finite_abs b) H) as [P HI]. pose proof (f_micros_nonneg b H) as N0. unfold float_json, float_string. apply Z.ltb_lt in HI. rewrite HI. unfold micros_text.
  set (n := f_micros b) in *. assert (D : 0 <= n / 1000000) by (apply Z.div_pos; lia). pose proof (Z.mod_pos_bound n 1000000 ltac:(lia)) as M.
  exists (if f_neg b then B "-" else []), (fmt_uint 10 (n / 1000000)), (B "." ++ pad6 (n mod 1000000)), (pad6 (n mod 1000000)). split; [reflexivity|].
  split; [destruct (f_neg b); auto|]. split; [rewrite (proj2 (fmt_uint_dec _ D)); apply fmt_uint_canonical, D|]. split; [constructor; apply pad6_digits; lia|].
  intros _ E. pose proof (pad6_len (n mod 1000000) M) as L. rewrite E in L. discriminate L.
Qed.
Theorem C170_string : forall b, float_string b = float_json b.
Proof. reflexivity. Qed.
Example C170_ex : float_json (2047 * 2 ^ 52) = B "+Inf" /\ float_json 4638387860618067575 = B "123.456000". Proof. split; vm_compute; reflexivity. Qed.

(** ** C171 *)
(** JSON never swaps two finite values. *)
Theorem C171_order : forall a b old a' b', finite a -> finite b -> value a <= value b ->
  float_unjson old (float_json a) = (a', true) -> float_unjson old (float_json b) = (b', true) -> value a' <= value b'.
Proof.
  intros a b old a' b' Fa Fb L Ea Eb. rewrite (proj1 (json_trip a old Fa)) in Ea. rewrite (proj1 (json_trip b old Fb)) in Eb. injection Ea as <-. injection Eb as <-. exact (trip_mono a b Fa Fb L).
Qed.
Example C171_ex : value 13827852295878370918 <= value 4591870180066957722. Proof. vm_compute. discriminate. Qed.

(** ** Exact statements of what holds of refuted properties *)
(** C168: an integer is kept exactly when it is a multiple of a power of two by
    at most 2^53. *)
Lemma int_float_fl n : Z.abs n <= 2 ^ 64 -> (value (int_float n) = n * unit_ <-> fl (Z.abs n * unit_)).
Proof.
  intros H. assert (U : 0 < unit_) by reflexivity. destruct (int_float_spec n H) as (Fi & Sg & _). assert (M : 2 ^ 64 * unit_ < mag_limit) by reflexivity.
  assert (N0 : 0 <= Z.abs n * unit_) by (apply Z.mul_nonneg_nonneg; lia).
  assert (L : Z.abs n * unit_ < mag_limit) by (eapply Z.le_lt_trans; [apply Z.mul_le_mono_nonneg_r; [lia|exact H]|exact M]). pose proof (round_mag_fl (Z.abs n * unit_) 1 Z.lt_0_1 N0) as HF.
  assert (L' : round_mag (Z.abs n * unit_) 1 < mag_limit).
  { destruct (Z_lt_le_dec (round_mag (Z.abs n * unit_) 1) mag_limit) as [C|C]; [exact C|exfalso]. apply overflow in C; [|lia|lia]. unfold too_large in C. assert (2 ^ 64 < 1 * (2 ^ 1024 - 2 ^ 970)) by reflexivity. lia. }
  assert (V : value (int_float n) = signed (n <? 0) (round_mag (Z.abs n * unit_) 1)).
  { unfold value. rewrite Sg. pose proof (mag_bits_spec _ HF L') as (B1 & B2 & _). unfold int_float. rewrite (proj1 (mag_sign (n <? 0) (mag_bits (round_mag (Z.abs n * unit_) 1)) ltac:(pose proof inf_lt; lia))), B2. reflexivity. }
  rewrite V. split.
  - intros E. assert (round_mag (Z.abs n * unit_) 1 = Z.abs n * unit_) as <-; [|exact HF]. unfold signed in E. destruct (n <? 0) eqn:S; [apply Z.ltb_lt in S|apply Z.ltb_ge in S]; [rewrite Z.abs_neq in * by lia|rewrite Z.abs_eq in * by lia]; lia.
  - intros F. pose proof (round_mag_exact 1 _ ltac:(lia) F) as E. rewrite Z.mul_1_l in E. rewrite E. unfold signed. destruct (n <? 0) eqn:S; [apply Z.ltb_lt in S|apply Z.ltb_ge in S]; [rewrite Z.abs_neq by lia|rewrite Z.abs_eq by lia]; ring.
Qed.
Theorem C168_exact_partial : forall n old, Z.abs n <= 2 ^ 64 ->
  (value (fst (float_scan old (AInt64 n))) = n * 2 ^ 1074 <-> exists m e, 0 <= e /\ Z.abs m <= 2 ^ 53 /\ n = m * 2 ^ e).
Proof.
  intros n old H. change (fst (float_scan old (AInt64 n))) with (int_float n). rewrite (int_float_fl n H). change unit_ with (2 ^ 1074). split.
  - intros F. pose proof (fl_mant _ F) as EF. pose proof (ulp_nonneg (Z.abs n * 2 ^ 1074)) as K. pose proof (proj1 (ulp_range _ _ (proj1 F) K) eq_refl) as [_ R]. set (k := ulp_exp (Z.abs n * 2 ^ 1074)) in *. set (m := mant _) in *. clearbody k m.
    rewrite (pow2_add 53 k) in R by lia. pose proof (pow2_pos k K) as PK. assert (M : 0 <= m < 2 ^ 53) by (destruct F as [F0 _]; nia).
    destruct (Z_le_gt_dec 1074 k) as [G|G].
    + exists (Z.sgn n * m), (k - 1074). split; [lia|]. split; [rewrite Z.abs_mul, (Z.abs_eq m) by lia; pose proof (Z.abs_spec (Z.sgn n)); pose proof (Z.sgn_spec n); nia|].
      assert (Z.abs n = m * 2 ^ (k - 1074)). { pose proof (pow2_pos 1074 ltac:(lia)). apply (Z.mul_reg_r _ _ (2 ^ 1074)); [lia|]. rewrite EF, <- Z.mul_assoc, <- pow2_add by lia. do 2 f_equal. lia. }
      rewrite <- Z.mul_assoc, <- H0. rewrite Z.mul_comm. symmetry. apply Z.abs_sgn.
    + exists n, 0. split; [lia|]. split; [|lia]. replace 1074 with ((1074 - k) + k) in EF by lia. rewrite pow2_add, Z.mul_assoc in EF by lia. apply Z.mul_reg_r in EF; [|lia]. pose proof (pow2_pos (1074 - k) ltac:(lia)). nia.
  - intros (m & e & He & Hm & ->). rewrite Z.abs_mul, (Z.abs_eq (2 ^ e)) by (apply Z.pow_nonneg; lia). rewrite <- Z.mul_assoc, <- pow2_add by lia. apply fl_of; lia.
Qed.
Example C168_exact_ex : Z.abs (2 ^ 62 + 2 ^ 10) <= 2 ^ 64 /\ 2 ^ 62 + 2 ^ 10 = (2 ^ 52 + 1) * 2 ^ 10. Proof. split; vm_compute; [discriminate|reflexivity]. Qed.

(** C170: the text is a JSON number exactly for finite values. *)
Theorem C170_exact_partial : forall b, pattern b -> (json_number (float_json b) <-> finite b).
Proof.
  intros b P. split; [|apply C170_json_partial]. intros (t & ip & fr & fp & E & Ht & ((Ne & Hi) & _) & _). apply finite_abs. split; [exact P|]. destruct (Z.ltb_spec (f_abs b) inf_bits) as [L|L]; [exact L|exfalso]. apply Z.ltb_ge in L.
  destruct ip as [|c ip]; [congruence|]. inversion Hi as [|? ? [X Y] _]; subst. unfold float_json, float_string in E. rewrite L in E. destruct (f_abs b =? inf_bits); [destruct (f_neg b)|]; destruct Ht as [-> | ->]; try discriminate E; injection E as <- _; vm_compute in X, Y; lia.
Qed.


(** The other float64 values: their texts, which json.Unmarshal of a whole document
    does not accept, are read back by UnmarshalJSON. *)
Theorem C170_special_partial : forall b, pattern b ->
  (infinite b -> float_json b = (if 2 ^ 63 <=? b then B "-Inf" else B "+Inf") /\ forall old, float_unjson old (float_json b) = (b, true)) /\
  (nan b -> float_json b = B "NaN" /\ forall old, exists c, float_unjson old (float_json b) = (c, true) /\ nan c).
Proof.
  intros b P. destruct (pattern_split b P) as [A E].
  assert (X : exponent b = f_abs b / 2 ^ 52 /\ fraction b = f_abs b mod 2 ^ 52).
  { rewrite E at 1 3. destruct (mag_sign (f_neg b) (f_abs b) A) as (_ & -> & ->). split; [apply exp_pos; exact A|reflexivity]. }
  destruct X as [X1 X2]. split.
  - intros (_ & I1 & I2). rewrite X1 in I1. rewrite X2 in I2. assert (Fa : f_abs b = inf_bits).
    { rewrite (Z.div_mod (f_abs b) (2 ^ 52)) by discriminate. rewrite I1, I2. reflexivity. }
    assert (J : float_json b = (if 2 ^ 63 <=? b then B "-Inf" else B "+Inf")) by (unfold float_json, float_string; rewrite Fa; reflexivity).
    split; [exact J|]. intros old. rewrite J. rewrite E at 2. rewrite Fa. unfold f_neg. destruct (2 ^ 63 <=? b); reflexivity.
  - intros (_ & I1 & I2). rewrite X1 in I1. rewrite X2 in I2. assert (Fa : inf_bits < f_abs b).
    { rewrite (Z.div_mod (f_abs b) (2 ^ 52)) by discriminate. rewrite I1. pose proof (Z.mod_pos_bound (f_abs b) (2 ^ 52) pow52_pos). unfold inf_bits. lia. }
    assert (J : float_json b = B "NaN").
    { unfold float_json, float_string. destruct (Z.ltb_spec (f_abs b) inf_bits); [lia|]. destruct (Z.eqb_spec (f_abs b) inf_bits); [lia|reflexivity]. }
    split; [exact J|]. intros old. exists nan_bits. rewrite J. split; [reflexivity|]. split; [split; [discriminate|reflexivity]|split; [reflexivity|discriminate]].
Qed.
Example C170_special_case : infinite (2 ^ 63 + 2047 * 2 ^ 52) /\ float_json (2 ^ 63 + 2047 * 2 ^ 52) = B "-Inf" /\ nan (2047 * 2 ^ 52 + 7).
Proof. split; [|split; [reflexivity|]]; (split; [split; [discriminate|reflexivity]|split; [reflexivity|try reflexivity; discriminate]]). Qed.

(** ** C186: which driver values Float.Scan takes; texts are only read from []byte (C183) *)
Theorem C186_float : forall x old, (forall s, x <> ABytes s) ->
  (snd (float_scan old x) = true <-> x = ANil \/ exists n, x = AInt n \/ x = AInt64 n \/ x = AUint n \/ x = AUint64 n \/ x = AFloat n \/ x = AFloat32 n) /\
  (snd (float_scan old x) = false -> fst (float_scan old x) = old).
Proof.
  intros x old N. split; [|apply (C167_error_keeps old x [])].
  destruct x as [|z|z|z|z|z|s|s|b|z|z|s y|z]; cbn [float_scan snd]; split; intros H; try discriminate; try reflexivity; try (left; reflexivity); try (right; exists z; auto 7; fail);
    try (destruct H as [H|[n [H|[H|[H|[H|[H|H]]]]]]]; discriminate); exfalso; exact (N s eq_refl).
Qed.
Example C186_float_ex : map (fun x => snd (float_scan 0 x)) [ANil; AInt 1; AFloat 0; AFloat32 0; ABytes (B "1"); AStr (B "1"); ABool true; AUint32 1] = [true; true; true; true; true; false; false; false].
Proof. vm_compute. reflexivity. Qed.

(** ** Assumptions *)
Print Assumptions C87_float_json_refuted.
Print Assumptions C87_near_partial.
Print Assumptions C87_survives_iff_partial.
Print Assumptions C87_second_trip_partial.
Print Assumptions C87_multiples_partial.
Print Assumptions C87_integers_partial.
Print Assumptions C87_large_partial.
Print Assumptions C166_scan.
Print Assumptions C166_json.
Print Assumptions C166_range.
Print Assumptions C167_error_keeps.
Print Assumptions C167_accepts_only.
Print Assumptions C168_integer_refuted.
Print Assumptions C168_integer_partial.
Print Assumptions C169_float32.
Print Assumptions C169_float64.
Print Assumptions C170_json_refuted.
Print Assumptions C170_json_partial.
Print Assumptions C170_string.
Print Assumptions C171_order.
Print Assumptions C168_exact_partial.
Print Assumptions C170_exact_partial.
Print Assumptions C170_special_partial.
Print Assumptions C186_float.
