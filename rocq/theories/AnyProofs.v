(** Proofs on values of type any. *)
From Coq Require Import Sorted.
From Verif Require Import GoBase GoBaseFacts IdModel IdSpec IdProofs FloatModel FloatSpec FloatProofs TypeModel TypeSpec TypeProofs ParamModel ParamSpec ProvModel JsonModel JsonSpec JsonProofs AnyModel AnySpec.
Open Scope Z_scope.

Fixpoint aval_rect' (P : aval -> Prop) (hn : P VNil) (hb : forall b, P (VBool b)) (hi : forall n, P (VInt n)) (hf : forall n, P (VNum n)) (hs : forall s, P (VStr s))
  (ha : forall l, Forall P l -> P (VArr l)) (ho : forall l, Forall (fun kv => P (snd kv)) l -> P (VMap l)) (v : aval) : P v :=
  match v with
  | VNil => hn
  | VBool b => hb b
  | VInt n => hi n
  | VNum n => hf n
  | VStr s => hs s
  | VArr l => ha l ((fix go l := match l return Forall P l with [] => Forall_nil _ | x :: r => Forall_cons x (aval_rect' P hn hb hi hf hs ha ho x) (go r) end) l)
  | VMap l => ho l ((fix go l := match l return Forall (fun kv => P (snd kv)) l with [] => Forall_nil _ | x :: r => Forall_cons x (aval_rect' P hn hb hi hf hs ha ho (snd x)) (go r) end) l)
  end.

Lemma any_json_ok fmt v : float_format fmt -> sendable v -> json_ok (any_json fmt v).
Proof.
  intros Hf. induction v as [|b|n|n|s|l IH|l IH] using aval_rect'; intros O; cbn [any_json]; inversion O; subst; try constructor.
  - apply scan_num_int.
  - destruct (Hf n H0) as [J _]. inversion J. assumption.
  - apply Forall_map. rewrite Forall_forall in *. auto.
  - apply Forall_map. rewrite Forall_forall in *. intros kv I. cbn [snd]. apply IH; [exact I|]. apply H1. exact I.
Qed.
Lemma any_json_repaired fmt v : sendable v -> json_repaired (any_json fmt v) = any_json fmt v.
Proof.
  induction v as [|b|n|n|s|l IH|l IH] using aval_rect'; intros O; cbn [any_json json_repaired]; inversion O; subst; try reflexivity; f_equal.
  - apply repaired_text. assumption.
  - rewrite map_map. apply map_ext_in. intros x I. rewrite Forall_forall in *. auto.
  - rewrite map_map. apply map_ext_in. intros [k x] I. rewrite Forall_forall in *. cbn [fst snd]. destruct (H1 _ I) as [U K]. cbn [fst snd] in *. rewrite (repaired_text _ U). f_equal. apply (IH _ I K).
Qed.

(** ** Numbers *)
Lemma fmt_uint_spec n : 0 <= n -> is_dec (fmt_uint 10 n) /\ dec_val (fmt_uint 10 n) = n.
Proof. intros H. destruct (fmt_uint_canonical n H) as (D & V & _). auto. Qed.
Lemma int_decimal n : exists ip, decimal (fmt_int 10 n) (n <? 0) ip [] 0 /\ dec_val ip = Z.abs n.
Proof.
  unfold fmt_int. destruct (Z.ltb_spec n 0) as [H|H].
  - destruct (fmt_uint_spec (- n)) as ((N & D) & V); [lia|]. exists (fmt_uint 10 (- n)). split; [|lia]. exists (B "-"), [], []. split; [rewrite !app_nil_r; reflexivity|].
    split; [constructor|]. split; [exact D|]. split; [constructor|]. split; [rewrite app_nil_r; exact N|constructor].
  - destruct (fmt_uint_spec n H) as ((N & D) & V). exists (fmt_uint 10 n). split; [|lia]. exists [], [], []. split; [rewrite !app_nil_r; reflexivity|].
    split; [constructor|]. split; [exact D|]. split; [constructor|]. split; [rewrite app_nil_r; exact N|constructor].
Qed.
Lemma parse_int n : Z.abs n <= 2 ^ 64 -> exists b, parse_float (fmt_int 10 n) = Some b /\ nearest (n <? 0) n 1 b.
Proof.
  intros H. destruct (int_decimal n) as (ip & D & V). pose proof (decimal_nearest _ _ _ _ _ D ltac:(lia)) as X.
  assert (E1 : dec_num ip [] 0 = Z.abs n) by (unfold dec_num; rewrite app_nil_r, V; change (10 ^ Z.max 0 0) with 1; lia).
  assert (E2 : dec_den [] 0 = 1) by reflexivity. rewrite E1, E2 in X.
  destruct (parse_float (fmt_int 10 n)) as [b|].
  - exists b. split; [reflexivity|]. replace n with (signed (n <? 0) (Z.abs n)) at 2; [exact X|]. unfold signed. destruct (Z.ltb_spec n 0); lia.
  - exfalso. unfold too_large in X. rewrite Z.mul_1_l, Z.abs_involutive in X. assert (Y : 2 ^ 64 < 2 ^ 1024 - 2 ^ 970) by reflexivity. lia.
Qed.

Lemma any_of_sent fmt v : float_format fmt -> sendable v -> arrives v (any_of (any_json fmt v)) /\ any_fits (any_json fmt v) = true.
Proof.
  intros Hf. induction v as [|b|n|n|s|l IH|l IH] using aval_rect'; intros O; cbn [any_json any_of any_fits]; inversion O; subst; try (split; [constructor|reflexivity]).
  - destruct (parse_int n) as (b & E & N); [lia|]. rewrite E. split; [constructor; exact N|reflexivity].
  - destruct (Hf n H0) as [_ E]. rewrite E. split; [constructor|reflexivity].
  - rewrite Forall_forall in IH, H0. split.
    + constructor. rewrite map_map. clear O. induction l as [|x l IHl]; cbn [map]; constructor; [apply IH; [left; reflexivity|apply H0; left; reflexivity]|].
      apply IHl; intros y I; [apply IH|apply H0]; right; exact I.
    + apply forallb_forall. intros j I. apply in_map_iff in I. destruct I as (x & <- & I). apply IH; auto.
  - rewrite Forall_forall in IH, H1. split.
    + constructor. rewrite map_map. cbn [fst snd]. rewrite stored_sorted by (rewrite map_map; exact H0). clear O H0. induction l as [|x l IHl]; cbn [map]; constructor.
      * split; [reflexivity|]. cbn [snd]. apply IH; [left; reflexivity|]. apply H1. left. reflexivity.
      * apply IHl; intros y I; [apply IH|apply H1]; right; exact I.
    + apply forallb_forall. intros j I. apply in_map_iff in I. destruct I as (x & <- & I). cbn [snd]. apply IH; [exact I|]. apply H1. exact I.
Qed.
Lemma unmarshal_sent fmt m : float_format fmt -> sendable (VMap m) -> exists m', unmarshal_map (any_text fmt m) = (Some m', true) /\ arrives (VMap m) (VMap m').
Proof.
  intros Hf Hs. unfold unmarshal_map, any_text. rewrite (parse_text _ (any_json_ok fmt _ Hf Hs)), (any_json_repaired fmt _ Hs).
  destruct (any_of_sent fmt _ Hf Hs) as [A F]. cbn [any_json any_of] in *. rewrite F. eexists. split; [reflexivity|exact A].
Qed.

(** ** A way to write every float64 *)
Definition exact_text (b : Z) : bytes := (if f_neg b then B "-" else []) ++ fmt_uint 10 (f_mag b * 5 ^ 1074) ++ B "e-1074".
Lemma exact_scan b : finite b -> scan_num (exact_text b) = Some (exact_text b, []).
Proof.
  intros H. unfold exact_text. rewrite (f_mag_spec b H). pose proof (mag_nonneg b H) as M. set (n := magnitude b * 5 ^ 1074). assert (N : 0 <= n) by (apply Z.mul_nonneg_nonneg; [exact M|apply Z.pow_nonneg; lia]).
  clearbody n. clear M.
  assert (X : forall sg, match num_int (fmt_uint 10 n ++ B "e-1074") with
    | Some (i, r1) => match num_frac r1 with Some (fr, r2) => match num_exp r2 with Some (e, r3) => Some (sg ++ i ++ fr ++ e, r3) | None => None end | None => None end
    | None => None end = Some (sg ++ fmt_uint 10 n ++ B "e-1074", [])).
  { intros sg. assert (I : num_int (fmt_uint 10 n ++ B "e-1074") = Some (fmt_uint 10 n, B "e-1074")).
    { destruct (Z_lt_le_dec n 10) as [L|L].
      - rewrite fmt_uint_small by lia. cbn [num_int app]. rewrite digit_char_byte by lia. destruct (Z.eqb_spec (48 + n) 48) as [E|E]; [reflexivity|].
        cbn [span_digits]. unfold JsonModel.is_digit at 1. replace (in_rng 48 57 (digit_char n)) with true by (symmetry; apply in_rng_spec; rewrite digit_char_byte by lia; lia). reflexivity.
      - pose proof (fmt_uint_digits n N) as D. pose proof (fmt_uint_head n L) as Hd. destruct (fmt_uint 10 n) as [|c r] eqn:E; [exfalso; apply (fmt_uint_nonempty 10 n); lia || exact E|].
        cbn [num_int app]. destruct (Z.eqb_spec (byte c) 48) as [X|X]; [destruct (Hd c r eq_refl X)|].
        assert (SP : forall s, Forall (fun c => JsonModel.is_digit c = true) s -> span_digits (s ++ B "e-1074") = (s, B "e-1074")).
        { induction s as [|d s IHs]; intros F; [reflexivity|]. inversion F as [|? ? F1 F2]; subst. cbn [app span_digits]. rewrite F1, (IHs F2). reflexivity. }
        pose proof (SP _ D) as Y. cbn [app] in Y. rewrite Y. reflexivity. }
    rewrite I. reflexivity. }
  unfold scan_num. destruct (f_neg b).
  - cbn [app B list_ascii_of_string]. change (byte (Ascii true false true true false true false false) =? 45) with true. cbv iota. apply (X (B "-")).
  - specialize (X []). pose proof (fmt_uint_digits n N) as D. cbn [app].
    destruct (fmt_uint 10 n) as [|c r] eqn:E; [exfalso; apply (fmt_uint_nonempty 10 n); lia || exact E|]. inversion D as [|? ? D1 _]; subst. apply in_rng_spec in D1. cbn [app] in *. destruct (Z.eqb_spec (byte c) 45); [lia|]. exact X.
Qed.
Lemma exact_value b : finite b -> decimal (exact_text b) (f_neg b) (fmt_uint 10 (magnitude b * 5 ^ 1074)) [] (- 1074).
Proof.
  intros H. pose proof (mag_nonneg b H) as M. unfold exact_text. rewrite (f_mag_spec b H). set (n := magnitude b * 5 ^ 1074). assert (N : 0 <= n) by (apply Z.mul_nonneg_nonneg; [exact M|apply Z.pow_nonneg; lia]).
  destruct (fmt_uint_spec n N) as ((Ne & D) & _). exists (if f_neg b then B "-" else []), [], (B "e-1074"). split; [reflexivity|].
  split; [destruct (f_neg b); constructor|]. split; [exact D|]. split; [constructor|]. split; [rewrite app_nil_r; exact Ne|].
  apply (et_exp (ascii_of_nat 101) (B "-") true (B "1074")); [left; reflexivity|constructor|split; [discriminate|]]. repeat constructor; vm_compute; lia.
Qed.
Lemma exact_parse b : finite b -> parse_float (exact_text b) = Some b.
Proof.
  intros H. pose proof (decimal_nearest _ _ _ _ _ (exact_value b H) ltac:(reflexivity)) as X.
  pose proof (mag_nonneg b H) as M. assert (N : 0 <= magnitude b * 5 ^ 1074) by (apply Z.mul_nonneg_nonneg; [exact M|apply Z.pow_nonneg; lia]).
  assert (E1 : dec_num (fmt_uint 10 (magnitude b * 5 ^ 1074)) [] (- 1074) = magnitude b * 5 ^ 1074).
  { unfold dec_num. rewrite app_nil_r. rewrite (proj2 (fmt_uint_spec _ N)). change (10 ^ Z.max 0 (-1074)) with 1. apply Z.mul_1_r. }
  assert (E2 : dec_den [] (- 1074) = 2 ^ 1074 * 5 ^ 1074) by (vm_compute; reflexivity).
  rewrite E1, E2 in X. assert (P5 : 0 < 5 ^ 1074) by (vm_compute; reflexivity). assert (P2 : 0 < 2 ^ 1074) by (vm_compute; reflexivity).
  assert (Nb : nearest (f_neg b) (signed (f_neg b) (magnitude b)) (2 ^ 1074) b).
  { split; [exact H|]. split; [reflexivity|]. assert (D0 : dist (signed (f_neg b) (magnitude b)) (2 ^ 1074) b = 0).
    { unfold dist. rewrite (value_sign b H). unfold signed. destruct (f_neg b); rewrite Z.abs_0_iff; ring. }
    intros c Hc. rewrite D0. split; [apply Z.abs_nonneg|]. intros Dc V. exfalso. apply V. symmetry in Dc. unfold dist in Dc. apply Z.abs_0_iff in Dc.
    rewrite (value_sign b H). unfold signed in Dc. destruct (f_neg b); apply (Z.mul_reg_l _ _ (2 ^ 1074)); try (apply Z.neq_sym, Z.lt_neq; exact P2); set (u := 2 ^ 1074) in *; clearbody u; lia. }
  destruct (parse_float (exact_text b)) as [c|].
  - f_equal. apply (nearest_unique (f_neg b) (signed (f_neg b) (magnitude b)) (2 ^ 1074)); [exact P2| |exact Nb].
    apply (nearest_scale _ _ _ (5 ^ 1074) c P5). replace (signed (f_neg b) (magnitude b) * 5 ^ 1074) with (signed (f_neg b) (magnitude b * 5 ^ 1074)); [exact X|]. unfold signed. destruct (f_neg b); ring.
  - exfalso. apply (proj1 (too_large_scale (magnitude b) (2 ^ 1074) _ P5)) in X. unfold too_large in X. rewrite Z.abs_eq in X by exact M. pose proof (mag_le_max b H) as L.
    assert (Y : max_mag < 2 ^ 1074 * (2 ^ 1024 - 2 ^ 970)) by (vm_compute; reflexivity). apply (Z.lt_irrefl (magnitude b)). eapply Z.le_lt_trans; [exact L|]. eapply Z.lt_le_trans; [exact Y|exact X].
Qed.
Lemma exact_format : float_format exact_text.
Proof. intros b H. split; [constructor; apply exact_scan; exact H|apply exact_parse; exact H]. Qed.

(** ** Every JSON text *)
Lemma jdigit c : JsonModel.is_digit c = true -> IdSpec.is_digit c.
Proof. intros H. apply in_rng_spec in H. unfold byte in H. unfold IdSpec.is_digit. lia. Qed.
Lemma span_spec s a b : span_digits s = (a, b) -> s = a ++ b /\ Forall IdSpec.is_digit a.
Proof.
  revert a b. induction s as [|c s IH]; intros a b E; cbn [span_digits] in E; [injection E as <- <-; split; [reflexivity|constructor]|].
  destruct (JsonModel.is_digit c) eqn:D; [|injection E as <- <-; split; [reflexivity|constructor]].
  destruct (span_digits s) as [a' b'] eqn:Es. injection E as <- <-. destruct (IH _ _ eq_refl) as [-> F]. split; [reflexivity|]. constructor; [apply jdigit; exact D|exact F].
Qed.
Lemma byte_is c n : (n < 256)%nat -> byte c = Z.of_nat n -> c = ascii_of_nat n.
Proof. intros L E. unfold byte in E. apply Nat2Z.inj in E. rewrite <- E. symmetry. apply ascii_nat_embedding. Qed.
Lemma scan_num_decimal s t r : scan_num s = Some (t, r) -> exists neg ip fp x, decimal t neg ip fp x.
Proof.
  unfold scan_num. destruct (match s with c :: r0 => if byte c =? 45 then ([c], r0) else ([], s) | [] => ([], s) end) as [sg r0] eqn:E0.
  assert (S0 : exists neg, sign_text sg neg).
  { destruct s as [|c s']; [injection E0 as <- <-; exists false; constructor|]. destruct (Z.eqb_spec (byte c) 45) as [E|E]; injection E0 as <- <-; [|exists false; constructor].
    exists true. rewrite (byte_is c 45 ltac:(lia) E). constructor. }
  destruct S0 as [neg S0]. destruct (num_int r0) as [[i r1]|] eqn:E1; [|discriminate]. destruct (num_frac r1) as [[fr r2]|] eqn:E2; [|discriminate]. destruct (num_exp r2) as [[e r3]|] eqn:E3; [|discriminate].
  intros E. injection E as <- <-.
  assert (I : Forall IdSpec.is_digit i /\ i <> []).
  { unfold num_int in E1. destruct r0 as [|c r0]; [discriminate|]. destruct (Z.eqb_spec (byte c) 48) as [X|X].
    - injection E1 as <- <-. split; [|discriminate]. constructor; [|constructor]. unfold IdSpec.is_digit. unfold byte in X. lia.
    - destruct (span_digits (c :: r0)) as [[|d a] b] eqn:Es; [discriminate|]. injection E1 as <- <-. split; [apply (span_spec _ _ _ Es)|discriminate]. }
  assert (Fr : exists fp, frac_text fr fp).
  { unfold num_frac in E2. destruct r1 as [|c r1]; [injection E2 as <- <-; exists []; constructor|]. destruct (Z.eqb_spec (byte c) 46) as [X|X]; [|injection E2 as <- <-; exists []; constructor].
    destruct (span_digits r1) as [[|d a] b] eqn:Es; [discriminate|]. injection E2 as <- <-. exists (d :: a). rewrite (byte_is c 46 ltac:(lia) X). apply (ft_dot (d :: a)). apply (span_spec _ _ _ Es). }
  assert (Ex : exists x, exp_text e x).
  { unfold num_exp in E3. destruct r2 as [|c r2]; [injection E3 as <- <-; exists 0; constructor|]. destruct ((byte c =? 101) || (byte c =? 69)) eqn:X; [|injection E3 as <- <-; exists 0; constructor].
    assert (C : In c (B "eE")). { apply orb_true_iff in X. destruct X as [X|X]; apply Z.eqb_eq in X; [rewrite (byte_is c 101 ltac:(lia) X)|rewrite (byte_is c 69 ltac:(lia) X)]; cbn; auto. }
    destruct (match r2 with d :: r' => if (byte d =? 43) || (byte d =? 45) then ([d], r') else ([], r2) | [] => ([], r2) end) as [sg' r1'] eqn:Eg.
    destruct (span_digits r1') as [[|d a] b] eqn:Es; [discriminate|]. injection E3 as <- <-. destruct (span_spec _ _ _ Es) as [_ F].
    assert (S1 : exists n, sign_text sg' n).
    { destruct r2 as [|d' r2]; [injection Eg as <- <-; exists false; constructor|]. destruct ((byte d' =? 43) || (byte d' =? 45)) eqn:Y; [|injection Eg as <- <-; exists false; constructor].
      injection Eg as <- <-. apply orb_true_iff in Y. destruct Y as [Y|Y]; apply Z.eqb_eq in Y; [rewrite (byte_is d' 43 ltac:(lia) Y); exists false|rewrite (byte_is d' 45 ltac:(lia) Y); exists true]; constructor. }
    destruct S1 as [n S1]. eexists. apply et_exp; [exact C|exact S1|split; [discriminate|exact F]]. }
  destruct Fr as [fp Fr]. destruct Ex as [x Ex]. exists neg, i, fp, x. exists sg, fr, e. split; [reflexivity|]. split; [exact S0|]. split; [apply I|]. split; [exact Fr|]. split; [|exact Ex].
  destruct I as [_ I]. destruct i; [congruence|discriminate].
Qed.
Inductive numbers : json -> Prop :=
| nm_null : numbers JNull
| nm_bool b : numbers (JBool b)
| nm_num t neg ip fp x : decimal t neg ip fp x -> numbers (JNum t)
| nm_str s : numbers (JStr s)
| nm_arr l : Forall numbers l -> numbers (JArr l)
| nm_obj l : Forall (fun kv => numbers (snd kv)) l -> numbers (JObj l).
Lemma jval_numbers f : (forall s v r, jval f s = Some (v, r) -> numbers v) /\ (forall s l r, jelems f s = Some (l, r) -> Forall numbers l) /\ (forall s l r, jmembers f s = Some (l, r) -> Forall (fun kv => numbers (snd kv)) l).
Proof.
  induction f as [|f (IH1 & IH2 & IH3)]; [split; [|split]; intros; discriminate|]. split; [|split].
  - intros s v r E. cbn [jval] in E. destruct (skip_ws s) as [|c r0]; [discriminate|].
    destruct (byte c =? 34). { destruct (unquote _ r0) as [[x r']|]; [|discriminate]. injection E as <- <-. constructor. }
    destruct (byte c =? 91). { destruct (skip_ws r0) as [|d r1]; [discriminate|]. destruct (byte d =? 93); [injection E as <- <-; constructor; constructor|]. destruct (jelems f r0) as [[l r2]|] eqn:El; [|discriminate]. injection E as <- <-. constructor. apply (IH2 _ _ _ El). }
    destruct (byte c =? 123). { destruct (skip_ws r0) as [|d r1]; [discriminate|]. destruct (byte d =? 125); [injection E as <- <-; constructor; constructor|]. destruct (jmembers f r0) as [[l r2]|] eqn:El; [|discriminate]. injection E as <- <-. constructor. apply (IH3 _ _ _ El). }
    destruct (has_prefix (B "null") (c :: r0)); [injection E as <- <-; constructor|]. destruct (has_prefix (B "true") (c :: r0)); [injection E as <- <-; constructor|]. destruct (has_prefix (B "false") (c :: r0)); [injection E as <- <-; constructor|].
    destruct (scan_num (c :: r0)) as [[t r']|] eqn:Es; [|discriminate]. injection E as <- <-. destruct (scan_num_decimal _ _ _ Es) as (neg & ip & fp & x & D). econstructor; exact D.
  - intros s l r E. cbn [jelems] in E. destruct (jval f s) as [[v r0]|] eqn:Ev; [|discriminate]. destruct (skip_ws r0) as [|c r1]; [discriminate|].
    destruct (byte c =? 44). { destruct (jelems f r1) as [[l' r2]|] eqn:El; [|discriminate]. injection E as <- <-. constructor; [apply (IH1 _ _ _ Ev)|apply (IH2 _ _ _ El)]. }
    destruct (byte c =? 93); [|discriminate]. injection E as <- <-. constructor; [apply (IH1 _ _ _ Ev)|constructor].
  - intros s l r E. cbn [jmembers] in E. destruct (skip_ws s) as [|q r0]; [discriminate|]. destruct (negb (byte q =? 34)); [discriminate|]. destruct (unquote _ r0) as [[k r1]|]; [|discriminate].
    destruct (skip_ws r1) as [|co r2]; [discriminate|]. destruct (negb (byte co =? 58)); [discriminate|]. destruct (jval f r2) as [[v r3]|] eqn:Ev; [|discriminate]. destruct (skip_ws r3) as [|c r4]; [discriminate|].
    destruct (byte c =? 44). { destruct (jmembers f r4) as [[l' r5]|] eqn:El; [|discriminate]. injection E as <- <-. constructor; [apply (IH1 _ _ _ Ev)|apply (IH3 _ _ _ El)]. }
    destruct (byte c =? 125); [|discriminate]. injection E as <- <-. constructor; [apply (IH1 _ _ _ Ev)|constructor].
Qed.
Lemma parse_numbers s v : parse_json s = Some v -> numbers v.
Proof.
  unfold parse_json. destruct (jval (2 * length s + 2) s) as [[w r]|] eqn:E; [|discriminate]. destruct (is_empty (skip_ws r)); [|discriminate]. intros X. injection X as <-.
  apply (proj1 (jval_numbers _) _ _ _ E).
Qed.

Lemma forallb_false {A} (f : A -> bool) l : forallb f l = false -> exists x, In x l /\ f x = false.
Proof.
  induction l as [|x l IH]; cbn [forallb]; [discriminate|]. destruct (f x) eqn:E; [|intros _; exists x; split; [left; reflexivity|exact E]].
  intros H. destruct (IH H) as (y & I & Ey). exists y. split; [right; exact I|exact Ey].
Qed.

(** *** Maps *)
Lemma sput_value {V} k (v : V) l j : StronglySorted str_lt (map fst l) -> value_of j (sput k v l) = (if beqb j k then Some v else value_of j l).
Proof.
  induction l as [|[i w] l IH]; intros S0; cbn [sput value_of]; [reflexivity|]. cbn [map fst] in S0. inversion S0 as [|? ? S1 S2]; subst.
  destruct (beqb_spec k i) as [->|N]; [cbn [value_of]; destruct (beqb j i); reflexivity|]. destruct (bltb k i); cbn [value_of]; [reflexivity|]. rewrite (IH S1).
  destruct (beqb_spec j i) as [->|N2]; [|reflexivity]. destruct (beqb_spec i k) as [->|_]; [congruence|reflexivity].
Qed.
Lemma sput_keys {V} k (v : V) l x : In x (map fst (sput k v l)) -> x = k \/ In x (map fst l).
Proof.
  induction l as [|[i w] l IH]; cbn [sput map fst In]; [intuition|]. destruct (beqb_spec k i) as [->|N]; cbn [map fst In]; [intuition|]. destruct (bltb k i); cbn [map fst In]; intuition.
Qed.
Lemma sput_sorted {V} k (v : V) l : StronglySorted str_lt (map fst l) -> StronglySorted str_lt (map fst (sput k v l)).
Proof.
  induction l as [|[i w] l IH]; intros S0; cbn [sput map fst]; [constructor; constructor|]. cbn [map fst] in S0. inversion S0 as [|? ? S1 S2]; subst.
  destruct (beqb_spec k i) as [->|N]; [exact S0|]. destruct (bltb k i) eqn:L; cbn [map fst].
  - constructor; [exact S0|]. apply bltb_spec in L. constructor; [exact L|]. rewrite Forall_forall in *. intros x I. apply S2 in I. apply bltb_spec. apply bltb_spec in L, I. exact (bltb_trans _ _ _ L I).
  - constructor; [apply IH; exact S1|]. apply Forall_forall. intros x I. apply sput_keys in I. destruct I as [->|I]; [|rewrite Forall_forall in S2; auto]. apply bltb_spec. destruct (bltb_total k i) as [X|[X|X]]; congruence.
Qed.
Lemma stored_spec {V} (l : list (bytes * V)) : StronglySorted str_lt (map fst (stored l)) /\ forall k, value_of k (stored l) = last_of k l.
Proof.
  unfold stored. assert (G : forall acc : list (bytes * V), StronglySorted str_lt (map fst acc) ->
    StronglySorted str_lt (map fst (fold_left (fun acc kv => sput (fst kv) (snd kv) acc) l acc)) /\
    forall k, value_of k (fold_left (fun acc kv => sput (fst kv) (snd kv) acc) l acc) = match last_of k l with Some x => Some x | None => value_of k acc end).
  { induction l as [|[i w] l IH]; intros acc A; cbn [fold_left last_of fst snd]; [split; [exact A|reflexivity]|].
    destruct (IH (sput i w acc) (sput_sorted i w acc A)) as [G1 G2]. split; [exact G1|]. intros k. rewrite G2, (sput_value i w acc k A). destruct (last_of k l); [reflexivity|]. destruct (beqb k i); reflexivity. }
  destruct (G [] ltac:(constructor)) as [G1 G2]. split; [exact G1|]. intros k. rewrite G2. destruct (last_of k l); reflexivity.
Qed.
Lemma any_of_denotes v : numbers v -> small_exponents v -> denotes v (any_of v).
Proof.
  induction v as [|b|t|s|l IH|l IH] using json_rect'; intros N S0; cbn [any_of]; try constructor.
  - inversion N as [| |? neg ip fp x D| | |]; subst. inversion S0 as [| |? Sm| | |]; subst. pose proof (decimal_nearest _ _ _ _ _ D (Sm _ _ _ _ D)) as X.
    pose proof (decimal_range _ _ _ _ _ D (Sm _ _ _ _ D)) as R.
    destruct (parse_float t); econstructor; try eassumption. intros T. apply R in T. discriminate T.
  - inversion N as [| | | |? Nl|]; subst. inversion S0 as [| | | |? Sl|]; subst. clear N S0. induction l as [|x l IHl]; cbn [map]; [constructor|].
    inversion IH; inversion Nl; inversion Sl; subst. constructor; auto.
  - inversion N as [| | | | |? Nl]; subst. inversion S0 as [| | | | |? Sl]; subst. clear N S0. destruct (stored_spec (map (fun kv => (fst kv, any_of (snd kv))) l)) as [G1 G2].
    apply (dn_obj l (map (fun kv => (fst kv, any_of (snd kv))) l)); [|exact G1|exact G2]. clear G1 G2. induction l as [|x l IHl]; cbn [map]; [constructor|].
    inversion IH; inversion Nl; inversion Sl; subst. constructor; [split; [reflexivity|cbn [snd]; auto]|auto].
Qed.
Lemma any_fits_range v : numbers v -> small_exponents v -> (any_fits v = false <-> overflows v).
Proof.
  induction v as [|b|t|s|l IH|l IH] using json_rect'; intros N S0; cbn [any_fits]; try (split; [discriminate|intros X; inversion X]).
  - inversion N as [| |? neg ip fp x D| | |]; subst. inversion S0 as [| |? Sm| | |]; subst. split.
    + intros E. econstructor; [exact D|]. apply (decimal_range _ _ _ _ _ D (Sm _ _ _ _ D)). destruct (parse_float t); [discriminate E|reflexivity].
    + intros X. inversion X as [? neg' ip' fp' x' D' T| |]; subst. apply (decimal_range _ _ _ _ _ D' (Sm _ _ _ _ D')) in T. rewrite T. reflexivity.
  - inversion N as [| | | |? Nl|]; subst. inversion S0 as [| | | |? Sl|]; subst. rewrite Forall_forall in *. split.
    + intros E. destruct (forallb_false _ _ E) as (j & I & Ej). econstructor; [exact I|]. apply (IH j I (Nl j I) (Sl j I)). exact Ej.
    + intros X. inversion X as [|? j I O|]; subst. apply (IH j I (Nl j I) (Sl j I)) in O. destruct (forallb any_fits l) eqn:E; [|reflexivity]. rewrite forallb_forall in E. rewrite (E j I) in O. discriminate O.
  - inversion N as [| | | | |? Nl]; subst. inversion S0 as [| | | | |? Sl]; subst. rewrite Forall_forall in *. split.
    + intros E. destruct (forallb_false _ _ E) as ([k j] & I & Ej). cbn [snd] in Ej. econstructor; [exact I|]. apply (IH (k, j) I (Nl _ I) (Sl _ I)). exact Ej.
    + intros X. inversion X as [| |? k j I O]; subst. apply (IH (k, j) I (Nl _ I) (Sl _ I)) in O. destruct (forallb _ l) eqn:E; [|reflexivity]. rewrite forallb_forall in E. specialize (E _ I). cbn [snd] in *. rewrite E in O. discriminate O.
Qed.
