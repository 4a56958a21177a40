(** Proofs on the JSON codec. *)
From Coq Require Import Permutation Sorted.
From Verif Require Import GoBase GoBaseFacts IdModel TypeModel TypeSpec TypeProofs ParamModel JsonModel JsonSpec.
Open Scope Z_scope.

(** ** Bytes and UTF-8 *)
Lemma byte_range c : 0 <= byte c < 256.
Proof. unfold byte. pose proof (nat_ascii_bounded c). lia. Qed.
Lemma byte_zb z : 0 <= z < 256 -> byte (zb z) = z.
Proof. intros H. unfold byte, zb. rewrite nat_ascii_embedding by lia. lia. Qed.
Lemma in_rng_spec lo hi c : in_rng lo hi c = true <-> lo <= byte c <= hi.
Proof. unfold in_rng. rewrite Bool.andb_true_iff, !Z.leb_le. tauto. Qed.
Lemma in_rng_zb lo hi z : 0 <= z < 256 -> lo <= z <= hi -> in_rng lo hi (zb z) = true.
Proof. intros H K. apply in_rng_spec. rewrite byte_zb by exact H. exact K. Qed.

Lemma utf8_size_enc r t : scalar r -> utf8_size (utf8_enc r ++ t) = length (utf8_enc r).
Proof.
  intros S. unfold scalar in S. unfold utf8_enc.
  destruct (Z.ltb_spec r 128) as [H1|H1].
  { cbn [app utf8_size length]. rewrite byte_zb by lia. destruct (Z.ltb_spec r 128); [reflexivity|lia]. }
  destruct (Z.ltb_spec r 2048) as [H2|H2].
  { cbn [app utf8_size length]. rewrite byte_zb by (Z.to_euclidean_division_equations; lia).
    destruct (Z.ltb_spec (192 + r / 64) 128); [Z.to_euclidean_division_equations; lia|].
    destruct (Z.ltb_spec (192 + r / 64) 194); [Z.to_euclidean_division_equations; lia|].
    destruct (Z.ltb_spec (192 + r / 64) 224); [|Z.to_euclidean_division_equations; lia].
    rewrite in_rng_zb by (Z.to_euclidean_division_equations; lia). reflexivity. }
  destruct (Z.ltb_spec r 65536) as [H3|H3].
  { cbn [app utf8_size length]. rewrite byte_zb by (Z.to_euclidean_division_equations; lia).
    destruct (Z.ltb_spec (224 + r / 4096) 128); [Z.to_euclidean_division_equations; lia|].
    destruct (Z.ltb_spec (224 + r / 4096) 194); [Z.to_euclidean_division_equations; lia|].
    destruct (Z.ltb_spec (224 + r / 4096) 224); [Z.to_euclidean_division_equations; lia|].
    destruct (Z.ltb_spec (224 + r / 4096) 240); [|Z.to_euclidean_division_equations; lia].
    rewrite !in_rng_zb; try (Z.to_euclidean_division_equations; lia); [reflexivity|].
    destruct (Z.eqb_spec (224 + r / 4096) 224); destruct (Z.eqb_spec (224 + r / 4096) 237); Z.to_euclidean_division_equations; lia. }
  cbn [app utf8_size length]. rewrite byte_zb by (Z.to_euclidean_division_equations; lia).
  destruct (Z.ltb_spec (240 + r / 262144) 128); [Z.to_euclidean_division_equations; lia|].
  destruct (Z.ltb_spec (240 + r / 262144) 194); [Z.to_euclidean_division_equations; lia|].
  destruct (Z.ltb_spec (240 + r / 262144) 224); [Z.to_euclidean_division_equations; lia|].
  destruct (Z.ltb_spec (240 + r / 262144) 240); [Z.to_euclidean_division_equations; lia|].
  destruct (Z.ltb_spec (240 + r / 262144) 245); [|Z.to_euclidean_division_equations; lia].
  rewrite !in_rng_zb; try (Z.to_euclidean_division_equations; lia); [reflexivity|].
  destruct (Z.eqb_spec (240 + r / 262144) 240); destruct (Z.eqb_spec (240 + r / 262144) 244); Z.to_euclidean_division_equations; lia.
Qed.
Lemma utf8_enc_nonempty r : utf8_enc r <> [].
Proof. unfold utf8_enc. repeat destruct (_ <? _); discriminate. Qed.

(** The bytes of a valid rune. *)
Definition unit_bytes (b : bytes) : Prop :=
  (exists c, b = [c] /\ byte c < 128) \/ ((2 <= length b)%nat /\ Forall (fun c => 128 <= byte c) b /\ forall t, utf8_size (b ++ t) = length b).
Lemma utf8_size_unit s n : utf8_size s = S n -> (S n <= length s)%nat /\ unit_bytes (firstn (S n) s).
Proof.
  unfold utf8_size. destruct s as [|a r]; [discriminate|].
  destruct (Z.ltb_spec (byte a) 128) as [H1|H1]; [intros E; injection E as <-; split; [cbn [length]; lia|]; left; exists a; split; [reflexivity|exact H1]|].
  destruct (Z.ltb_spec (byte a) 194) as [H2|H2]; [discriminate|].
  assert (F1 : (byte a <? 128) = false) by (apply Z.ltb_ge; lia). assert (F2 : (byte a <? 194) = false) by (apply Z.ltb_ge; lia).
  destruct (Z.ltb_spec (byte a) 224) as [H3|H3].
  { destruct r as [|b r]; [discriminate|]. destruct (in_rng 128 191 b) eqn:B1; [|discriminate]. intros E; injection E as <-. split; [cbn [length]; lia|]. right.
    apply in_rng_spec in B1 as B2. split; [cbn; lia|]. split; [repeat constructor; lia|]. intros t. cbn [firstn app utf8_size length]. rewrite F1, F2.
    destruct (Z.ltb_spec (byte a) 224); [|lia]. rewrite B1. reflexivity. }
  assert (F3 : (byte a <? 224) = false) by (apply Z.ltb_ge; lia).
  destruct (Z.ltb_spec (byte a) 240) as [H4|H4].
  { destruct r as [|b [|c r]]; try discriminate. destruct (in_rng _ _ b) eqn:B1; [|discriminate]. destruct (in_rng 128 191 c) eqn:C1; [|discriminate]. cbn [andb]. intros E; injection E as <-. split; [cbn [length]; lia|]. right.
    apply in_rng_spec in B1 as B2. apply in_rng_spec in C1 as C2. split; [cbn; lia|]. split; [repeat constructor; try lia; destruct (byte a =? 224); lia|]. intros t. cbn [firstn app utf8_size length]. rewrite F1, F2, F3.
    destruct (Z.ltb_spec (byte a) 240); [|lia]. rewrite B1, C1. reflexivity. }
  assert (F4 : (byte a <? 240) = false) by (apply Z.ltb_ge; lia).
  destruct (Z.ltb_spec (byte a) 245) as [H5|H5]; [|discriminate].
  destruct r as [|b [|c [|d r]]]; try discriminate. destruct (in_rng _ _ b) eqn:B1; [|discriminate]. destruct (in_rng 128 191 c) eqn:C1; [|discriminate]. destruct (in_rng 128 191 d) eqn:D1; [|discriminate]. cbn [andb]. intros E; injection E as <-. split; [cbn [length]; lia|]. right.
  apply in_rng_spec in B1 as B2. apply in_rng_spec in C1 as C2. apply in_rng_spec in D1 as D2. split; [cbn; lia|]. split; [repeat constructor; try lia; destruct (byte a =? 240); lia|]. intros t. cbn [firstn app utf8_size length]. rewrite F1, F2, F3, F4.
  destruct (Z.ltb_spec (byte a) 245); [|lia]. rewrite B1, C1, D1. reflexivity.
Qed.
Lemma runes_units f : forall s, Forall (fun o => match o with Some b => unit_bytes b | None => True end) (runes f s).
Proof.
  induction f as [|f IH]; intros s; cbn [runes]; [constructor|]. destruct s as [|c r]; [constructor|].
  destruct (utf8_size (c :: r)) as [|n] eqn:E; constructor; auto. apply utf8_size_unit in E. apply E.
Qed.
(** Text is not changed. *)
Lemma runes_enc rs : Forall scalar rs -> forall f, (length (flat_map utf8_enc rs) <= f)%nat -> runes f (flat_map utf8_enc rs) = map (fun r => Some (utf8_enc r)) rs.
Proof.
  induction 1 as [|r rs Hr _ IH]; intros f L; cbn [flat_map map]; [destruct f; reflexivity|].
  pose proof (utf8_enc_nonempty r) as N. pose proof (utf8_size_enc r (flat_map utf8_enc rs) Hr) as Z.
  cbn [flat_map] in L. rewrite app_length in L. destruct (utf8_enc r) as [|c e] eqn:E; [congruence|]. destruct f as [|f]; [cbn in L; lia|].
  cbn [app runes]. cbn [app] in Z. rewrite Z. cbn [length].
  change (c :: e ++ flat_map utf8_enc rs) with ((c :: e) ++ flat_map utf8_enc rs).
  rewrite firstn_app, skipn_app. replace (S (length e)) with (length (c :: e)) by reflexivity. rewrite Nat.sub_diag, firstn_all, skipn_all. cbn [firstn skipn app]. rewrite app_nil_r.
  f_equal. apply IH. cbn [length] in L. lia.
Qed.
Lemma repaired_text s : utf8_text s -> repaired s = s.
Proof.
  intros (rs & Hr & ->). unfold repaired. rewrite runes_enc by (assumption || lia). clear Hr. induction rs as [|r rs IH]; [reflexivity|]. cbn [map flat_map]. rewrite IH. reflexivity.
Qed.

(** ** Strings *)
Definition rune_out (o : option bytes) : bytes := match o with Some b => b | None => replacement end.
Lemma unquote_esc c f t : byte c < 128 -> unquote (S f) (esc c ++ t) = add_to [c] (unquote f t).
Proof.
  intros H. destruct c as [[] [] [] [] [] [] [] []]; try (vm_compute in H; discriminate H); reflexivity.
Qed.
Lemma add_to_cons a o : add_to a o = match o with Some (b, r) => Some (a ++ b, r) | None => None end. Proof. reflexivity. Qed.
Lemma unquote_rune o f t : match o with Some b => unit_bytes b | None => True end -> unquote (S f) (enc_rune o ++ t) = add_to (rune_out o) (unquote f t).
Proof.
  destruct o as [b|]; intros U; [|reflexivity].
  destruct U as [(c & -> & H)|(L & F & Hs)]; [apply unquote_esc, H|].
  destruct b as [|x [|y b]]; try (cbn in L; lia). unfold enc_rune.
  destruct (beqb_spec (x :: y :: b) [zb 226; zb 128; zb 168]) as [->|_]; [reflexivity|].
  destruct (beqb_spec (x :: y :: b) [zb 226; zb 128; zb 169]) as [->|_]; [reflexivity|].
  inversion F as [|? ? X _]; subst. cbn [app unquote].
  destruct (Z.eqb_spec (byte x) 34); [lia|]. destruct (Z.eqb_spec (byte x) 92); [lia|]. destruct (Z.ltb_spec (byte x) 32); [lia|].
  specialize (Hs t). cbn [app] in Hs. rewrite Hs. cbn [length].
  change (x :: y :: b ++ t) with ((x :: y :: b) ++ t). replace (S (S (length b))) with (length (x :: y :: b)) by reflexivity.
  rewrite firstn_app, skipn_app, Nat.sub_diag, firstn_all, skipn_all. cbn [firstn skipn app rune_out]. rewrite app_nil_r. reflexivity.
Qed.
Lemma unquote_runes rs : Forall (fun o => match o with Some b => unit_bytes b | None => True end) rs -> forall f rest, (length rs < f)%nat ->
  unquote f (flat_map enc_rune rs ++ dquote :: rest) = Some (flat_map rune_out rs, rest).
Proof.
  induction 1 as [|o rs U _ IH]; intros f rest L; (destruct f as [|f]; [cbn in L; lia|]); cbn [flat_map]; [reflexivity|].
  rewrite <- app_assoc, unquote_rune by exact U. rewrite IH by (cbn in L; lia). reflexivity.
Qed.
Lemma enc_rune_nonempty o : match o with Some b => unit_bytes b | None => True end -> (1 <= length (enc_rune o))%nat.
Proof.
  destruct o as [b|]; intros U; [|cbn; lia]. destruct U as [(c & -> & H)|(L & _)].
  - cbn [enc_rune]. unfold esc. cbv zeta. repeat match goal with |- context [if ?b then _ else _] => destruct b end; cbn; lia.
  - destruct b as [|x [|y b]]; try (cbn in L; lia). unfold enc_rune. repeat destruct (beqb _ _); cbn; lia.
Qed.
Lemma runes_length rs : Forall (fun o => match o with Some b => unit_bytes b | None => True end) rs -> (length rs <= length (flat_map enc_rune rs))%nat.
Proof. induction 1 as [|o rs U _ IH]; cbn [flat_map length]; [lia|]. rewrite app_length. pose proof (enc_rune_nonempty o U). lia. Qed.
Lemma unquote_string s rest : unquote (S (length (enc_chars s ++ dquote :: rest))) (enc_chars s ++ dquote :: rest) = Some (repaired s, rest).
Proof.
  unfold enc_chars. apply (unquote_runes _ (runes_units (length s) s)). rewrite app_length. pose proof (runes_length _ (runes_units (length s) s)). lia.
Qed.

(** ** Numbers *)
Definition closes (rest : bytes) : Prop := match rest with [] => True | c :: _ => byte c = 44 \/ byte c = 93 \/ byte c = 125 end.
Definition num_end (rest : bytes) : Prop := match rest with [] => True | c :: _ => byte c = 44 \/ byte c = 93 \/ byte c = 125 \/ byte c = 32 \/ byte c = 10 \/ byte c = 9 \/ byte c = 13 end.
Lemma num_end_digit c r : num_end (c :: r) -> is_digit c = false.
Proof. cbn. intros H. unfold is_digit. destruct (in_rng 48 57 c) eqn:E; [|reflexivity]. apply in_rng_spec in E. lia. Qed.
Lemma span_app s : forall a b rest, num_end rest -> span_digits s = (a, b) -> span_digits (s ++ rest) = (a, b ++ rest).
Proof.
  induction s as [|c r IH]; intros a b rest C E; cbn [span_digits] in E.
  - injection E as <- <-. cbn [app]. destruct rest as [|c r]; [reflexivity|]. cbn [span_digits]. rewrite (num_end_digit _ _ C). reflexivity.
  - cbn [app span_digits]. destruct (is_digit c).
    + destruct (span_digits r) as [a' b'] eqn:E'. injection E as <- <-. rewrite (IH _ _ _ C eq_refl). reflexivity.
    + injection E as <- <-. reflexivity.
Qed.
Lemma num_int_app s a b rest : num_end rest -> num_int s = Some (a, b) -> num_int (s ++ rest) = Some (a, b ++ rest).
Proof.
  intros C. destruct s as [|c r]; [discriminate|]. cbn [num_int app]. destruct (byte c =? 48); [intros E; injection E as <- <-; reflexivity|].
  destruct (span_digits (c :: r)) as [x y] eqn:E. apply (span_app _ _ _ _ C) in E. cbn [app] in E. rewrite E. destruct x; [discriminate|]. intros H. injection H as <- <-. reflexivity.
Qed.
Lemma num_frac_app s a b rest : num_end rest -> num_frac s = Some (a, b) -> num_frac (s ++ rest) = Some (a, b ++ rest).
Proof.
  intros C. destruct s as [|c r]; cbn [num_frac app].
  - intros E. injection E as <- <-. destruct rest as [|c r]; [reflexivity|]. cbn [num_frac app]. cbn in C. destruct (Z.eqb_spec (byte c) 46); [lia|reflexivity].
  - destruct (byte c =? 46); [|intros E; injection E as <- <-; reflexivity].
    destruct (span_digits r) as [x y] eqn:E. apply (span_app _ _ _ _ C) in E. rewrite E. destruct x; [discriminate|]. intros H. injection H as <- <-. reflexivity.
Qed.
Lemma num_exp_app s a b rest : num_end rest -> num_exp s = Some (a, b) -> num_exp (s ++ rest) = Some (a, b ++ rest).
Proof.
  intros C. destruct s as [|c r]; cbn [num_exp app].
  - intros E. injection E as <- <-. destruct rest as [|c r]; [reflexivity|]. cbn [num_exp app]. cbn in C. destruct (Z.eqb_spec (byte c) 101); [lia|]. destruct (Z.eqb_spec (byte c) 69); [lia|reflexivity].
  - destruct ((byte c =? 101) || (byte c =? 69)); [|intros E; injection E as <- <-; reflexivity].
    destruct r as [|d r']; cbn [app].
    + cbn [span_digits]. discriminate.
    + destruct ((byte d =? 43) || (byte d =? 45)).
      * destruct (span_digits r') as [x y] eqn:E. apply (span_app _ _ _ _ C) in E. rewrite E. destruct x; [discriminate|]. intros H. injection H as <- <-. reflexivity.
      * destruct (span_digits (d :: r')) as [x y] eqn:E. apply (span_app _ _ _ _ C) in E. cbn [app] in E. rewrite E. destruct x; [discriminate|]. intros H. injection H as <- <-. reflexivity.
Qed.
Lemma scan_num_app t a b rest : num_end rest -> scan_num t = Some (a, b) -> scan_num (t ++ rest) = Some (a, b ++ rest).
Proof.
  intros C. unfold scan_num. assert (N : num_int [] = None) by reflexivity.
  assert (G : forall sg r0, match num_int r0 with
    | Some (i, r1) => match num_frac r1 with Some (fr, r2) => match num_exp r2 with Some (e, r3) => Some (sg ++ i ++ fr ++ e, r3) | None => None end | None => None end
    | None => None end = Some (a, b) -> match num_int (r0 ++ rest) with
    | Some (i, r1) => match num_frac r1 with Some (fr, r2) => match num_exp r2 with Some (e, r3) => Some (sg ++ i ++ fr ++ e, r3) | None => None end | None => None end
    | None => None end = Some (a, b ++ rest)).
  { intros sg r0. destruct (num_int r0) as [[i r1]|] eqn:E1; [|discriminate]. rewrite (num_int_app _ _ _ _ C E1).
    destruct (num_frac r1) as [[fr r2]|] eqn:E2; [|discriminate]. rewrite (num_frac_app _ _ _ _ C E2).
    destruct (num_exp r2) as [[e r3]|] eqn:E3; [|discriminate]. rewrite (num_exp_app _ _ _ _ C E3). intros H. apply (f_equal (fun o => match o with Some p => fst p | None => [] end)) in H as H1.
    apply (f_equal (fun o => match o with Some p => snd p | None => [] end)) in H as H2. cbn [fst snd] in *. subst. reflexivity. }
  destruct t as [|c r]; [rewrite N; discriminate|]. cbn [app]. destruct (byte c =? 45); intros H; [apply (G [c] r H)|apply (G [] (c :: r) H)].
Qed.
Lemma closes_num_end rest : closes rest -> num_end rest.
Proof. destruct rest; cbn; tauto. Qed.
(** The first byte of a number is a digit or a minus sign. *)
Lemma scan_num_head c r a b : scan_num (c :: r) = Some (a, b) -> byte c = 45 \/ 48 <= byte c <= 57.
Proof.
  unfold scan_num. destruct (Z.eqb_spec (byte c) 45) as [E|E]; [auto|]. cbn [num_int]. destruct (Z.eqb_spec (byte c) 48); [lia|].
  cbn [span_digits]. destruct (is_digit c) eqn:D; [|discriminate]. apply in_rng_spec in D. auto.
Qed.
Lemma digit_char_byte d : 0 <= d < 10 -> byte (digit_char d) = 48 + d.
Proof. intros H. assert (d = 0 \/ d = 1 \/ d = 2 \/ d = 3 \/ d = 4 \/ d = 5 \/ d = 6 \/ d = 7 \/ d = 8 \/ d = 9) as X by lia. repeat destruct X as [->|X]; try reflexivity. subst. reflexivity. Qed.
Lemma fmt_uint_digits n : 0 <= n -> Forall (fun c => is_digit c = true) (fmt_uint 10 n).
Proof.
  intros H. pose proof (fmt_uint_chars 10 n ltac:(lia) H) as F. eapply Forall_impl; [|exact F]. intros c (d & Hd & ->). apply in_rng_spec. rewrite digit_char_byte by exact Hd. lia.
Qed.
Lemma span_all s : Forall (fun c => is_digit c = true) s -> span_digits s = (s, []).
Proof. induction 1 as [|c r D _ IH]; [reflexivity|]. cbn [span_digits]. rewrite D, IH. reflexivity. Qed.
Lemma fmt_uint_head n : 10 <= n -> forall c r, fmt_uint 10 n = c :: r -> byte c <> 48.
Proof.
  intros H. revert H. enough (G : forall n, 0 <= n -> 1 <= n -> forall c r, fmt_uint 10 n = c :: r -> byte c <> 48) by (intros H; apply G; lia).
  apply (fmt_uint_ind (fun n s => 1 <= n -> forall c r, s = c :: r -> byte c <> 48) 10); [lia| |].
  - intros m Hm Hp c r E. injection E as <- <-. rewrite digit_char_byte by lia. lia.
  - intros m Hm IH Hp c r E. destruct (fmt_uint 10 (m / 10)) as [|d l] eqn:F.
    + pose proof (fmt_uint_nonempty 10 (m / 10) ltac:(lia) ltac:(Z.to_euclidean_division_equations; lia)). congruence.
    + cbn [app] in E. injection E as <- _. apply (IH ltac:(Z.to_euclidean_division_equations; lia) d l eq_refl).
Qed.
Lemma scan_num_uint sg n : 0 <= n -> match num_int (fmt_uint 10 n) with
    | Some (i, r1) => match num_frac r1 with Some (fr, r2) => match num_exp r2 with Some (e, r3) => Some (sg ++ i ++ fr ++ e, r3) | None => None end | None => None end
    | None => None end = Some (sg ++ fmt_uint 10 n, []).
Proof.
  intros H. destruct (Z_lt_le_dec n 10) as [L|L].
  - rewrite fmt_uint_small by lia. cbn [num_int]. rewrite digit_char_byte by lia. destruct (Z.eqb_spec (48 + n) 48) as [E|E]; [cbn [num_frac num_exp]; rewrite !app_nil_r; reflexivity|].
    cbn [span_digits]. unfold is_digit. replace (in_rng 48 57 (digit_char n)) with true by (symmetry; apply in_rng_spec; rewrite digit_char_byte by lia; lia). cbn [num_frac num_exp app]. rewrite ?app_nil_r. reflexivity.
  - pose proof (fmt_uint_digits n H) as D. pose proof (fmt_uint_head n L) as Hd. destruct (fmt_uint 10 n) as [|c r] eqn:E; [exfalso; apply (fmt_uint_nonempty 10 n); lia || exact E|].
    cbn [num_int]. destruct (Z.eqb_spec (byte c) 48) as [X|X]; [destruct (Hd c r eq_refl X)|]. rewrite (span_all _ D). cbn [num_frac num_exp]. rewrite !app_nil_r. reflexivity.
Qed.
Lemma scan_num_int n : scan_num (fmt_int 10 n) = Some (fmt_int 10 n, []).
Proof.
  unfold fmt_int. destruct (Z.ltb_spec n 0) as [H|H].
  - unfold scan_num. change (byte (ascii_of_nat 45) =? 45) with true. cbv iota. apply (scan_num_uint [ascii_of_nat 45] (- n)). lia.
  - unfold scan_num. pose proof (scan_num_uint [] n H) as X. pose proof (fmt_uint_digits n H) as D.
    destruct (fmt_uint 10 n) as [|c r] eqn:E; [discriminate X|]. inversion D as [|? ? D1 _]; subst. apply in_rng_spec in D1. destruct (Z.eqb_spec (byte c) 45); [lia|]. exact X.
Qed.

(** ** Texts *)
Fixpoint json_rect' (P : json -> Prop) (hn : P JNull) (hb : forall b, P (JBool b)) (ht : forall t, P (JNum t)) (hs : forall s, P (JStr s))
  (ha : forall l, Forall P l -> P (JArr l)) (ho : forall l, Forall (fun kv => P (snd kv)) l -> P (JObj l)) (v : json) : P v :=
  match v with
  | JNull => hn
  | JBool b => hb b
  | JNum t => ht t
  | JStr s => hs s
  | JArr l => ha l ((fix go l := match l return Forall P l with [] => Forall_nil _ | x :: r => Forall_cons x (json_rect' P hn hb ht hs ha ho x) (go r) end) l)
  | JObj l => ho l ((fix go l := match l return Forall (fun kv => P (snd kv)) l with [] => Forall_nil _ | x :: r => Forall_cons x (json_rect' P hn hb ht hs ha ho (snd x)) (go r) end) l)
  end.
Definition member_text (kv : bytes * json) : bytes := enc_string (fst kv) ++ B ":" ++ json_text (snd kv).
Lemma text_head v : json_ok v -> exists c r, json_text v = c :: r /\ is_ws c = false /\ byte c <> 93 /\ byte c <> 125 /\ byte c <> 44 /\ byte c <> 58.
Proof.
  intros H. destruct H as [|b|t H|s|l _|l _]; cbn [json_text].
  - eexists _, _. split; [reflexivity|]. repeat split; discriminate.
  - destruct b; eexists _, _; (split; [reflexivity|]); repeat split; discriminate.
  - destruct t as [|c r]; [discriminate H|]. exists c, r. split; [reflexivity|]. apply scan_num_head in H. unfold is_ws. cbv zeta.
    destruct (Z.eqb_spec (byte c) 32); [lia|]. destruct (Z.eqb_spec (byte c) 9); [lia|]. destruct (Z.eqb_spec (byte c) 10); [lia|]. destruct (Z.eqb_spec (byte c) 13); [lia|]. repeat split; lia.
  - eexists _, _. split; [reflexivity|]. repeat split; discriminate.
  - eexists _, _. split; [reflexivity|]. repeat split; discriminate.
  - eexists _, _. split; [reflexivity|]. repeat split; discriminate.
Qed.
Lemma text_skip v rest : json_ok v -> skip_ws (json_text v ++ rest) = json_text v ++ rest.
Proof. intros H. destruct (text_head v H) as (c & r & -> & W & _). cbn [app skip_ws]. rewrite W. reflexivity. Qed.
Lemma text_length v : json_ok v -> (1 <= length (json_text v))%nat.
Proof. intros H. destruct (text_head v H) as (c & r & -> & _). cbn. lia. Qed.
Lemma closes_skip rest : closes rest -> skip_ws rest = rest.
Proof.
  destruct rest as [|c r]; [reflexivity|]. cbn [closes skip_ws]. intros H. unfold is_ws. cbv zeta.
  destruct (Z.eqb_spec (byte c) 32); [lia|]. destruct (Z.eqb_spec (byte c) 9); [lia|]. destruct (Z.eqb_spec (byte c) 10); [lia|]. destruct (Z.eqb_spec (byte c) 13); [lia|]. reflexivity.
Qed.
Lemma prefix_head x p c r : byte x <> byte c -> has_prefix (x :: p) (c :: r) = false.
Proof. intros N. destruct (has_prefix (x :: p) (c :: r)) eqn:E; [|reflexivity]. apply has_prefix_spec in E. destruct E as [t E]. cbn [app] in E. injection E as -> _. congruence. Qed.

Definition jval_ok (v : json) : Prop := json_ok v -> forall f rest, closes rest -> (length (json_text v) <= f)%nat -> jval f (json_text v ++ rest) = Some (json_repaired v, rest).
Lemma jelems_text l : Forall jval_ok l -> Forall json_ok l -> l <> [] -> forall f rest, (length (join (B ",") (map json_text l)) < f)%nat ->
  jelems f (join (B ",") (map json_text l) ++ B "]" ++ rest) = Some (map json_repaired l, rest).
Proof.
  induction 1 as [|v l Hv _ IH]; intros O N f rest L; [congruence|]. inversion O as [|? ? Ov Ol]; subst. clear N. destruct f as [|f]; [lia|]. cbn [jelems].
  destruct l as [|w l].
  - cbn [map join] in *. rewrite (Hv Ov f (B "]" ++ rest)) by (cbn; auto || lia). reflexivity.
  - assert (Nn : w :: l <> []) by discriminate. revert IH Ol L. generalize (w :: l) Nn. clear w l Nn O. intros l N IH Ol L.
    assert (J : join (B ",") (map json_text (v :: l)) = json_text v ++ B "," ++ join (B ",") (map json_text l)) by (cbn [map]; apply join_cons; destruct l; [congruence|discriminate]).
    rewrite J in *. rewrite !app_length in L. cbn [length] in L. change (length (B ",")) with 1%nat in L. pose proof (text_length v Ov) as Lv.
    rewrite <- !app_assoc. rewrite (Hv Ov f) by (cbn; auto || lia). cbn [app skip_ws]. change (skip_ws (B "," ++ join (B ",") (map json_text l) ++ B "]" ++ rest)) with (B "," ++ join (B ",") (map json_text l) ++ B "]" ++ rest).
    cbn [app B list_ascii_of_string]. change (byte "," =? 44) with true. cbv iota.
    specialize (IH Ol N f rest ltac:(lia)). cbn [app B list_ascii_of_string] in IH. rewrite IH. reflexivity.
Qed.
Lemma jmembers_text l : Forall (fun kv => jval_ok (snd kv)) l -> Forall (fun kv => json_ok (snd kv)) l -> l <> [] -> forall f rest, (length (join (B ",") (map member_text l)) < f)%nat ->
  jmembers f (join (B ",") (map member_text l) ++ B "}" ++ rest) = Some (map (fun kv => (repaired (fst kv), json_repaired (snd kv))) l, rest).
Proof.
  assert (M : forall k v t f, jval_ok v -> json_ok v -> closes t -> (length (json_text v) <= f)%nat ->
    jmembers (S f) (member_text (k, v) ++ t) = match skip_ws t with
      | c :: r3 => if byte c =? 44 then match jmembers f r3 with Some (l, r4) => Some ((repaired k, json_repaired v) :: l, r4) | None => None end
                   else if byte c =? 125 then Some ([(repaired k, json_repaired v)], r3) else None
      | [] => None end).
  { intros k v t f Hv Ov Ht L. unfold member_text. cbn [fst snd]. unfold enc_string. rewrite <- !app_assoc. cbn [app]. cbn [jmembers]. change (skip_ws (dquote :: enc_chars k ++ dquote :: B ":" ++ json_text v ++ t)) with (dquote :: enc_chars k ++ dquote :: B ":" ++ json_text v ++ t). cbv iota.
    change (negb (byte dquote =? 34)) with false. cbv iota. rewrite (unquote_string k (B ":" ++ json_text v ++ t)). cbv iota beta.
    change (skip_ws (B ":" ++ json_text v ++ t)) with (B ":" ++ json_text v ++ t). cbn [app B list_ascii_of_string]. change (negb (byte ":" =? 58)) with false. cbv iota.
    rewrite (Hv Ov f t Ht L). reflexivity. }
  induction 1 as [|[k v] l Hv _ IH]; intros O N f rest L; [congruence|]. inversion O as [|? ? Ov Ol]; subst. clear N. cbn [snd] in *. destruct f as [|f]; [lia|].
  assert (LM : (length (json_text v) + 2 <= length (member_text (k, v)))%nat). { unfold member_text, enc_string. rewrite !app_length. cbn. lia. }
  destruct l as [|w l].
  - cbn [map join] in *. rewrite M; [reflexivity|exact Hv|exact Ov|cbn; auto|lia].
  - assert (Nn : w :: l <> []) by discriminate. revert IH Ol L. generalize (w :: l) Nn. clear w l Nn O. intros l N IH Ol L.
    assert (J : join (B ",") (map member_text ((k, v) :: l)) = member_text (k, v) ++ B "," ++ join (B ",") (map member_text l)) by (cbn [map]; apply join_cons; destruct l; [congruence|discriminate]).
    rewrite J in *. rewrite !app_length in L. change (length (B ",")) with 1%nat in L.
    rewrite <- !app_assoc. rewrite M; [|exact Hv|exact Ov|cbn; auto|lia].
    change (skip_ws (B "," ++ join (B ",") (map member_text l) ++ B "}" ++ rest)) with (B "," ++ join (B ",") (map member_text l) ++ B "}" ++ rest).
    cbn [app B list_ascii_of_string]. change (byte "," =? 44) with true. cbv iota.
    specialize (IH Ol N f rest ltac:(lia)). cbn [app B list_ascii_of_string] in IH. rewrite IH. reflexivity.
Qed.
Lemma jval_text v : jval_ok v.
Proof.
  induction v as [|b|t|s|l IH|l IH] using json_rect'; intros O f rest C L; (destruct f as [|f]; [pose proof (text_length _ O); lia|]).
  - reflexivity.
  - destruct b; reflexivity.
  - inversion O as [| |? H| | |]; subst. cbn [json_text json_repaired] in *. cbn [jval]. pose proof (text_skip _ rest O) as W. cbn [json_text] in W. rewrite W.
    destruct t as [|c r]; [discriminate H|]. pose proof (scan_num_head _ _ _ _ H) as Hh. cbn [app].
    destruct (Z.eqb_spec (byte c) 34); [lia|]. destruct (Z.eqb_spec (byte c) 91); [lia|]. destruct (Z.eqb_spec (byte c) 123); [lia|].
    assert (P : forall x p, (57 <? byte x) = true -> has_prefix (x :: p) (c :: r ++ rest) = false) by (intros x p X; apply Z.ltb_lt in X; apply prefix_head; lia).
    unfold B. cbn [list_ascii_of_string]. rewrite !P by reflexivity. change (c :: r ++ rest) with ((c :: r) ++ rest). rewrite (scan_num_app _ _ _ _ (closes_num_end _ C) H). reflexivity.
  - cbn [json_text json_repaired]. unfold enc_string. rewrite <- !app_assoc. cbn [app]. cbn [jval]. change (skip_ws (dquote :: enc_chars s ++ dquote :: rest)) with (dquote :: enc_chars s ++ dquote :: rest). cbv iota.
    change (byte dquote =? 34) with true. cbv iota. rewrite unquote_string. reflexivity.
  - inversion O as [| | | |? Ol|]; subst. cbn [json_text json_repaired] in *. destruct l as [|v l]; [reflexivity|].
    assert (N : v :: l <> []) by discriminate.
    assert (HW : exists c r, join (B ",") (map json_text (v :: l)) = c :: r /\ is_ws c = false /\ byte c <> 93).
    { inversion Ol as [|? ? Ov _]; subst. destruct (text_head v Ov) as (c & r & E & W & X & _). destruct l as [|w l].
      - exists c, r. cbn [map join]. auto.
      - exists c, (r ++ B "," ++ join (B ",") (map json_text (w :: l))). split; [|auto]. cbn [map]. rewrite join_cons by discriminate. rewrite E. reflexivity. }
    revert N HW IH Ol L. clear O. generalize (v :: l). clear v l. intros l N (c & r & E & W & X) IH Ol L.
    pose proof (jelems_text l IH Ol N f rest) as J. rewrite !app_length in L. change (length (B "[")) with 1%nat in L. change (length (B "]")) with 1%nat in L. specialize (J ltac:(lia)).
    rewrite <- !app_assoc. rewrite E in *. cbn [app B list_ascii_of_string] in *. cbn [jval skip_ws]. change (is_ws "[") with false. cbv iota.
    assert (WS : skip_ws (c :: r ++ "]"%char :: rest) = c :: r ++ "]"%char :: rest) by (cbn [skip_ws]; rewrite W; reflexivity). rewrite !WS. change (byte "[" =? 34) with false. change (byte "[" =? 91) with true. cbv iota.
    destruct (Z.eqb_spec (byte c) 93); [congruence|]. rewrite J. reflexivity.
  - inversion O as [| | | | |? Ol]; subst. cbn [json_repaired] in *.
    assert (T : json_text (JObj l) = B "{" ++ join (B ",") (map member_text l) ++ B "}") by reflexivity. rewrite T in *. clear T. destruct l as [|v l]; [reflexivity|].
    assert (N : v :: l <> []) by discriminate.
    assert (HW : exists r, join (B ",") (map member_text (v :: l)) = dquote :: r).
    { destruct l as [|w l]; [eexists; reflexivity|]. cbn [map]. rewrite join_cons by discriminate. eexists. reflexivity. }
    revert N HW IH Ol L. clear O. generalize (v :: l). clear v l. intros l N (r & E) IH Ol L.
    pose proof (jmembers_text l IH Ol N f rest) as J. assert (L1 : (1 + (length (join (B ",") (map member_text l)) + 1) <= S f)%nat) by (rewrite !app_length in L; exact L). specialize (J ltac:(lia)).
    rewrite <- !app_assoc. rewrite E in *. cbn [app B list_ascii_of_string] in *. cbn [jval skip_ws]. change (is_ws "{") with false. cbv iota. change (skip_ws (dquote :: r ++ "}"%char :: rest)) with (dquote :: r ++ "}"%char :: rest). change (byte "{" =? 34) with false. change (byte "{" =? 91) with false. change (byte "{" =? 123) with true. cbv iota.
    change (byte dquote =? 125) with false. cbv iota.
    rewrite J. reflexivity.
Qed.
(** Marshal followed by the parser. *)
Lemma parse_text v : json_ok v -> parse_json (json_text v) = Some (json_repaired v).
Proof.
  intros O. unfold parse_json. pose proof (jval_text v O (2 * length (json_text v) + 2)%nat [] I ltac:(lia)) as J. rewrite app_nil_r in J. rewrite J. reflexivity.
Qed.

(** ** Scan and Value *)
Lemma string_json_ok s : json_ok (JStr s). Proof. constructor. Qed.
Lemma slice_json_ok l : json_ok (slice_json l).
Proof. destruct l as [l|]; constructor. induction l; constructor; [constructor|assumption]. Qed.
Lemma ordered_keys_nodup {V} (m : gmap V) : map_ok m -> NoDup (ordered_keys m).
Proof. intros M. eapply Permutation_NoDup; [apply ordered_keys_perm|exact M]. Qed.
(** The members of the text of a map: its entries, in the order of the keys. *)
Definition members {V} (elem : V -> json) (m : gmap V) : list (bytes * json) := flat_map (fun k => match mget m k with Some v => [(k, elem v)] | None => [] end) (ordered_keys m).
Lemma members_in {V} (elem : V -> json) (m : gmap V) k v : In (k, v) (members elem m) <-> exists x, mget m k = Some x /\ v = elem x.
Proof.
  unfold members. rewrite in_flat_map. split.
  - intros (j & _ & H). destruct (mget m j) as [x|] eqn:E; [|destruct H]. destruct H as [H|[]]. injection H as <- <-. eauto.
  - intros (x & E & ->). exists k. split; [apply mget_keys; eauto|]. rewrite E. left. reflexivity.
Qed.
Lemma members_keys {V} (elem : V -> json) (m : gmap V) : map fst (members elem m) = ordered_keys m.
Proof.
  unfold members. assert (G : forall l, (forall k, In k l -> In k (ordered_keys m)) -> map fst (flat_map (fun k => match mget m k with Some v => [(k, elem v)] | None => [] end) l) = l).
  { induction l as [|k l IH]; intros H; [reflexivity|]. cbn [flat_map]. destruct (proj1 (mget_keys m k) (H k (or_introl eq_refl))) as [x E]. rewrite E. cbn [app map fst]. f_equal. apply IH. intros j J. apply H. right. exact J. }
  apply G. auto.
Qed.
Lemma map_json_ok {V} (elem : V -> json) (m : gmap V) : (forall v, json_ok (elem v)) -> json_ok (map_json elem m).
Proof.
  intros H. unfold map_json. constructor. apply Forall_forall. intros [k v] I. apply members_in in I. destruct I as (x & _ & ->). apply H.
Qed.
Lemma text_nonempty v : json_ok v -> is_empty (json_text v) = false.
Proof. intros H. destruct (text_head v H) as (c & r & -> & _). reflexivity. Qed.
(** Storing members one by one. *)
Lemma fold_put_members {V} (f : json -> V) (l : list (bytes * json)) : NoDup (map fst l) -> forall acc k,
  assoc k (fold_left (fun acc kv => put (fst kv) (f (snd kv)) acc) l acc) = match assoc k l with Some v => Some (f v) | None => assoc k acc end.
Proof.
  induction l as [|[j v] l IH]; intros N acc k; cbn [fold_left assoc map fst snd] in *; [reflexivity|]. inversion N as [|? ? N1 N2]; subst. rewrite IH by exact N2. rewrite assoc_put.
  destruct (beqb_spec j k) as [->|X]; [|reflexivity]. destruct (assoc k l) as [w|] eqn:E; [|reflexivity]. apply assoc_in in E. destruct N1. apply in_map_iff. exists (k, w). auto.
Qed.
Lemma mget_member {V} (elem : V -> json) (m : gmap V) k : map_ok m -> assoc k (members elem m) = option_map elem (mget m k).
Proof.
  intros M. destruct (mget m k) as [x|] eqn:E; cbn [option_map].
  - apply in_assoc; [rewrite members_keys; apply ordered_keys_nodup, M|]. apply members_in. eauto.
  - apply assoc_none. rewrite members_keys. intros I. apply mget_keys in I. destruct I as [v I]. congruence.
Qed.
Lemma repaired_members {V} (elem : V -> json) (m : gmap V) : (forall k v, mget m k = Some v -> utf8_text k /\ json_repaired (elem v) = elem v) -> json_repaired (map_json elem m) = map_json elem m.
Proof.
  intros H. unfold map_json. fold (members elem m). cbn [json_repaired]. f_equal. rewrite <- map_id. apply map_ext_in. intros [k v] I. apply members_in in I. destruct I as (x & E & ->). cbn [fst snd].
  destruct (H _ _ E) as [U R]. rewrite (repaired_text _ U), R. reflexivity.
Qed.
(** Scanning the text of [m] over [old]: the entries of [m], and those of [old]
    with other keys. *)
Lemma scan_over {V} (elem : V -> json) (dec : json -> V * bool) (old m : gmap V) : map_ok m -> entries m <> [] ->
  (forall v, json_ok (elem v)) -> (forall k v, mget m k = Some v -> utf8_text k /\ json_repaired (elem v) = elem v) -> (forall k v, mget m k = Some v -> dec (elem v) = (v, true)) ->
  exists n, map_scan dec old (map_value elem m) = (n, true) /\ n <> None /\ forall k, mget n k = match mget m k with Some v => Some v | None => mget old k end.
Proof.
  intros M Ne J T D. unfold map_value. destruct (is_empty (entries m)) eqn:E; [destruct (entries m); [congruence|discriminate E]|]. cbn [map_scan].
  pose proof (map_json_ok elem m J) as O. rewrite (text_nonempty _ O), (parse_text _ O), (repaired_members _ _ T). unfold map_json. fold (members elem m). cbn [into_map]. eexists. split; [f_equal|split; [discriminate|]].
  - apply forallb_forall. intros [k v] I. apply members_in in I. destruct I as (x & X & ->). cbn [snd]. rewrite (D _ _ X). reflexivity.
  - intros k. unfold mget at 1. cbn [entries]. rewrite (fold_put_members (fun v => fst (dec v))) by (rewrite members_keys; apply ordered_keys_nodup, M).
    rewrite (mget_member _ _ _ M). destruct (mget m k) as [x|] eqn:X; cbn [option_map]; [rewrite (D _ _ X)|]; reflexivity.
Qed.
Lemma into_elems_strings l : forall back, into_elems back (map JStr l) = (l, true).
Proof. induction l as [|x l IH]; intros back; cbn [map into_elems into_string]; [reflexivity|]. rewrite IH. reflexivity. Qed.
Lemma slice_repaired l : slice_text l -> json_repaired (slice_json l) = slice_json l.
Proof.
  destruct l as [l|]; intros T; [|reflexivity]. cbn [slice_json json_repaired]. f_equal. rewrite map_map. apply map_ext_in. intros x I. cbn [json_repaired]. rewrite repaired_text by (eapply T; [reflexivity|exact I]). reflexivity.
Qed.
Lemma kv_elem_slice l : kv_elem (slice_json l) = (l, true).
Proof. destruct l as [l|]; [|reflexivity]. unfold kv_elem. cbn [slice_json into_slice]. rewrite into_elems_strings. reflexivity. Qed.

(** Equal maps have the same text. *)
Lemma sorted_unique l1 l2 : StronglySorted str_lt l1 -> StronglySorted str_lt l2 -> (forall x, In x l1 <-> In x l2) -> l1 = l2.
Proof.
  assert (Irr : forall x y, str_lt x y -> str_lt y x -> False).
  { intros x y A B. apply bltb_spec in A, B. pose proof (bltb_trans _ _ _ A B) as C. rewrite bltb_irrefl in C. discriminate C. }
  intros H. revert l2. induction H as [|a l1 H1 IH F1]; intros l2 H2 E.
  - destruct l2 as [|b l2]; [reflexivity|]. destruct (proj2 (E b) (or_introl eq_refl)).
  - inversion H2 as [|b l2' H2' F2]; subst; [destruct (proj1 (E a) (or_introl eq_refl))|].
    rewrite Forall_forall in F1, F2.
    assert (a = b). { destruct (proj1 (E a) (or_introl eq_refl)) as [|I]; [auto|]. destruct (proj2 (E b) (or_introl eq_refl)) as [|I']; [auto|]. destruct (Irr a b (F1 _ I') (F2 _ I)). }
    subst b. f_equal. apply IH; [exact H2'|]. intros x. split; intros I.
    + destruct (proj1 (E x) (or_intror I)) as [->|]; [|assumption]. destruct (Irr x x (F1 _ I) (F1 _ I)).
    + destruct (proj2 (E x) (or_intror I)) as [->|]; [|assumption]. destruct (Irr x x (F2 _ I) (F2 _ I)).
Qed.
Lemma map_json_same {V} (elem : V -> json) (a b : gmap V) : map_ok a -> map_ok b -> same_map a b -> map_json elem a = map_json elem b.
Proof.
  intros A B S. assert (K : ordered_keys a = ordered_keys b).
  { apply sorted_unique; [apply ordered_keys_sorted, A|apply ordered_keys_sorted, B|]. intros x. rewrite !mget_keys. rewrite (S x). tauto. }
  unfold map_json. rewrite K. clear K. f_equal. induction (ordered_keys b) as [|k l IH]; [reflexivity|]. cbn [flat_map]. rewrite (S k), IH. reflexivity.
Qed.
Lemma same_empty {V} (a b : gmap V) : same_map a b -> is_empty (entries a) = is_empty (entries b).
Proof.
  intros S. destruct (entries a) as [|[k v] l] eqn:A, (entries b) as [|[k' v'] l'] eqn:B; try reflexivity; exfalso.
  - specialize (S k'). unfold mget in S. rewrite A, B in S. cbn [assoc] in S. rewrite beqb_refl in S. discriminate S.
  - specialize (S k). unfold mget in S. rewrite A, B in S. cbn [assoc] in S. rewrite beqb_refl in S. discriminate S.
Qed.

(** ** fmt.Sprint of a []byte is not JSON *)
Lemma sprint_head b c l : exists d r, join (B " ") (map (fun c => fmt_uint 10 (byte c)) (b :: c :: l)) = fmt_uint 10 (byte b) ++ B " " ++ d :: r /\ is_digit d = true.
Proof.
  cbn [map]. rewrite join_cons by discriminate. pose proof (fmt_uint_digits (byte c) ltac:(pose proof (byte_range c); lia)) as D.
  pose proof (fmt_uint_nonempty 10 (byte c) ltac:(lia) ltac:(pose proof (byte_range c); lia)) as N. revert D N. generalize (fmt_uint 10 (byte c)). intros u D N.
  destruct u as [|d r]; [congruence|]. inversion D as [|? ? D1 _]; subst.
  destruct (map (fun c => fmt_uint 10 (byte c)) l) as [|x l']; [exists d, r; split; [reflexivity|exact D1]|]. rewrite join_cons by discriminate. exists d, (r ++ B " " ++ join (B " ") (x :: l')). split; [reflexivity|exact D1].
Qed.
Lemma sprint_no_json show b : b <> [] -> match parse_json (sprint show (ABytes b)) with Some (JArr l) => exists t, l = [JNum t] | Some _ => False | None => True end.
Proof.
  intros N. destruct b as [|b l]; [congruence|]. cbn [sprint]. destruct l as [|c l].
  - cbn [map join]. assert (T : B "[" ++ fmt_uint 10 (byte b) ++ B "]" = json_text (JArr [JNum (fmt_uint 10 (byte b))])) by reflexivity.
    rewrite T. rewrite parse_text; [cbn [json_repaired map]; eauto|]. constructor. constructor; [|constructor]. constructor.
    pose proof (scan_num_int (byte b)) as S. unfold fmt_int in S. pose proof (byte_range b). destruct (Z.ltb_spec (byte b) 0); [lia|]. exact S.
  - destruct (sprint_head b c l) as (d & r & E & D). rewrite E. clear E. unfold parse_json.
    set (n := length _). assert (Ln : exists f, (2 * n + 2)%nat = S (S (S (S f)))).
    { subst n. rewrite !app_length. cbn [length]. change (length (B "[")) with 1%nat. eexists. cbn. rewrite ?Nat.add_succ_r. reflexivity. }
    destruct Ln as [f ->]. clear n. rewrite <- !app_assoc. set (rest := r ++ B "]").
    pose proof (byte_range b) as R. pose proof (fmt_uint_digits (byte b) ltac:(lia)) as Db. pose proof (scan_num_int (byte b)) as S. unfold fmt_int in S. destruct (Z.ltb_spec (byte b) 0); [lia|].
    pose proof (scan_num_app _ _ _ (B " " ++ (d :: r) ++ B "]") ltac:(cbn; auto) S) as A. clear S.
    destruct (fmt_uint 10 (byte b)) as [|x t] eqn:F; [discriminate A|]. inversion Db as [|? ? Dx _]; subst. apply in_rng_spec in Dx, D.
    assert (Wx : forall t, skip_ws (x :: t) = x :: t). { intros t'. cbn [skip_ws]. unfold is_ws. cbv zeta. destruct (Z.eqb_spec (byte x) 32); [lia|]. destruct (Z.eqb_spec (byte x) 9); [lia|]. destruct (Z.eqb_spec (byte x) 10); [lia|]. destruct (Z.eqb_spec (byte x) 13); [lia|]. reflexivity. }
    assert (Wd : forall t, skip_ws (d :: t) = d :: t). { intros t'. cbn [skip_ws]. unfold is_ws. cbv zeta. destruct (Z.eqb_spec (byte d) 32); [lia|]. destruct (Z.eqb_spec (byte d) 9); [lia|]. destruct (Z.eqb_spec (byte d) 10); [lia|]. destruct (Z.eqb_spec (byte d) 13); [lia|]. reflexivity. }
    cbn [app] in A. cbn [app]. set (tl := B " " ++ d :: r ++ B "]") in *.
    assert (J1 : forall f, jval (S f) (x :: t ++ tl) = Some (JNum (x :: t), tl)).
    { intros g. cbn [jval]. rewrite Wx.
      destruct (Z.eqb_spec (byte x) 34); [lia|]. destruct (Z.eqb_spec (byte x) 91); [lia|]. destruct (Z.eqb_spec (byte x) 123); [lia|].
      assert (P : forall y p, (57 <? byte y) = true -> has_prefix (y :: p) (x :: t ++ tl) = false) by (intros y p Y; apply Z.ltb_lt in Y; apply prefix_head; lia).
      unfold B. cbn [list_ascii_of_string]. rewrite !P by reflexivity. rewrite A. reflexivity. }
    assert (J2 : forall f, jelems (S (S f)) (x :: t ++ tl) = None).
    { intros g. change (jelems (S (S g)) (x :: t ++ tl)) with (match jval (S g) (x :: t ++ tl) with
        | None => None
        | Some (v, r) => match skip_ws r with c :: r1 => if byte c =? 44 then match jelems (S g) r1 with Some (l, r2) => Some (v :: l, r2) | None => None end else if byte c =? 93 then Some ([v], r1) else None | [] => None end end).
      rewrite J1. subst tl. change (skip_ws (B " " ++ d :: r ++ B "]")) with (skip_ws (d :: r ++ B "]")). rewrite Wd. destruct (Z.eqb_spec (byte d) 44); [lia|]. destruct (Z.eqb_spec (byte d) 93); [lia|]. reflexivity. }
    assert (J3 : jval (S (S (S (S f)))) (B "[" ++ x :: t ++ tl) = match skip_ws (x :: t ++ tl) with
            | d :: r1 => if byte d =? 93 then Some (JArr [], r1) else match jelems (S (S (S f))) (x :: t ++ tl) with Some (l, r2) => Some (JArr l, r2) | None => None end
            | [] => None end) by reflexivity.
    rewrite J3, Wx, J2. destruct (Z.eqb_spec (byte x) 93); [lia|]. exact I.
Qed.

(** ** Cursors *)
Fixpoint cval_rect' (P : cval -> Prop) (hn : P CNull) (hb : forall b, P (CBool b)) (hi : forall n, P (CInt n)) (hf : forall n, P (CFloat n)) (ht : forall t, P (CFloatText t)) (hs : forall s, P (CStr s))
  (ha : forall l, Forall P l -> P (CArr l)) (ho : forall l, Forall (fun kv => P (snd kv)) l -> P (CMap l)) (v : cval) : P v :=
  match v with
  | CNull => hn
  | CBool b => hb b
  | CInt n => hi n
  | CFloat n => hf n
  | CFloatText t => ht t
  | CStr s => hs s
  | CArr l => ha l ((fix go l := match l return Forall P l with [] => Forall_nil _ | x :: r => Forall_cons x (cval_rect' P hn hb hi hf ht hs ha ho x) (go r) end) l)
  | CMap l => ho l ((fix go l := match l return Forall (fun kv => P (snd kv)) l with [] => Forall_nil _ | x :: r => Forall_cons x (cval_rect' P hn hb hi hf ht hs ha ho (snd x)) (go r) end) l)
  end.
Lemma int_literal_fmt n : int_literal (fmt_int 10 n) = Some n.
Proof.
  unfold fmt_int. destruct (Z.ltb_spec n 0) as [H|H].
  - cbn [int_literal]. change (byte (ascii_of_nat 45) =? 45) with true. cbv iota. rewrite dec_value_fmt by lia. cbn. f_equal. lia.
  - pose proof (fmt_uint_digits n H) as D. pose proof (dec_value_fmt n H) as V. destruct (fmt_uint 10 n) as [|c r] eqn:E; [destruct (fmt_uint_nonempty 10 n ltac:(lia) H E)|].
    cbn [int_literal]. inversion D as [|? ? D1 _]; subst. apply in_rng_spec in D1. destruct (Z.eqb_spec (byte c) 45); [lia|]. exact V.
Qed.
Lemma sput_last {V} k (v : V) l : Forall (fun j => str_lt j k) (map fst l) -> sput k v l = l ++ [(k, v)].
Proof.
  induction l as [|[j w] l IH]; intros F; [reflexivity|]. cbn [map fst] in F. inversion F as [|? ? F1 F2]; subst. cbn [sput app]. apply bltb_spec in F1.
  destruct (beqb_spec k j) as [->|N]; [rewrite bltb_irrefl in F1; discriminate F1|].
  destruct (bltb k j) eqn:E; [pose proof (bltb_trans _ _ _ E F1) as X; rewrite bltb_irrefl in X; discriminate X|]. rewrite IH by exact F2. reflexivity.
Qed.
Lemma stored_sorted {V} (l : list (bytes * V)) : StronglySorted str_lt (map fst l) -> stored l = l.
Proof.
  unfold stored. intros S0. change l with ([] ++ l) at 2. revert S0. assert (A : Forall (fun kv => Forall (fun j => str_lt j (fst kv)) (map fst (@nil (bytes * V)))) l) by (apply Forall_forall; constructor).
  revert A. generalize (@nil (bytes * V)). induction l as [|[k v] l IH]; intros acc A S0; cbn [fold_left]; [rewrite app_nil_r; reflexivity|].
  inversion A as [|? ? A1 A2]; subst. cbn [map fst snd] in *. inversion S0 as [|? ? S1 S2]; subst. rewrite (sput_last _ _ _ A1). rewrite IH; [rewrite <- app_assoc; reflexivity| |exact S1].
  rewrite Forall_forall in A2, S2 |- *. intros [j w] I. cbn [fst]. rewrite map_app. apply Forall_app. split; [apply (A2 _ I)|]. constructor; [|constructor]. cbn [fst]. apply S2. apply in_map_iff. exists (j, w). auto.
Qed.
Lemma f64_small n : Z.abs n <= 2 ^ 53 -> f64 n = n.
Proof.
  intros H. unfold f64. cbv zeta. destruct (Z.ltb_spec (Z.abs n) (2 ^ 53)) as [L|L]; [reflexivity|].
  assert (E : Z.abs n = 2 ^ 53) by lia. rewrite E. change (Z.log2 (2 ^ 53) - 52) with 1. change (round_even (2 ^ 53) (2 ^ 1) * 2 ^ 1) with (2 ^ 53). rewrite <- E. rewrite Z.mul_comm. apply Z.abs_sgn.
Qed.
(** Beyond 2^53 the float64 is even. *)
Lemma f64_even n : 2 ^ 53 < Z.abs n -> Z.even (f64 n) = true.
Proof.
  intros H. unfold f64. cbv zeta. destruct (Z.ltb_spec (Z.abs n) (2 ^ 53)) as [L|L]; [lia|].
  assert (K : 53 <= Z.log2 (Z.abs n)) by (apply Z.log2_le_pow2; lia).
  replace (Z.log2 (Z.abs n) - 52) with (Z.succ (Z.log2 (Z.abs n) - 53)) by lia. rewrite Z.pow_succ_r by lia. rewrite !Z.even_mul. rewrite !Bool.orb_true_r. reflexivity.
Qed.
Lemma cval_json_ok v : cval_ok v -> json_ok (cval_json v).
Proof.
  induction v as [|b|n|n|t|s|l IH|l IH] using cval_rect'; intros O; cbn [cval_json]; inversion O; subst; constructor.
  - apply scan_num_int.
  - apply scan_num_int.
  - apply Forall_map. rewrite Forall_forall in *. auto.
  - apply Forall_map. rewrite Forall_forall in *. intros kv I. cbn [snd]. apply IH; [exact I|]. apply H1. exact I.
Qed.
Lemma cval_json_repaired v : cval_ok v -> json_repaired (cval_json v) = cval_json v.
Proof.
  induction v as [|b|n|n|t|s|l IH|l IH] using cval_rect'; intros O; cbn [cval_json json_repaired]; inversion O; subst; try reflexivity; f_equal.
  - apply repaired_text. assumption.
  - rewrite map_map. apply map_ext_in. intros x I. rewrite Forall_forall in *. auto.
  - rewrite map_map. apply map_ext_in. intros [k x] I. rewrite Forall_forall in *. cbn [fst snd]. destruct (H1 _ I) as [U K]. cbn [fst snd] in *. rewrite (repaired_text _ U). f_equal. apply (IH _ I K).
Qed.
Lemma json_cval_floats v : cval_ok v -> json_cval (cval_json v) = as_floats v.
Proof.
  induction v as [|b|n|n|t|s|l IH|l IH] using cval_rect'; intros O; cbn [cval_json json_cval as_floats]; inversion O; subst; try reflexivity.
  - rewrite int_literal_fmt. reflexivity.
  - rewrite int_literal_fmt. f_equal. apply f64_small. assumption.
  - f_equal. rewrite map_map. apply map_ext_in. intros x I. rewrite Forall_forall in *. auto.
  - f_equal. rewrite map_map. cbn [fst snd]. rewrite (map_ext_in _ (fun kv => (fst kv, as_floats (snd kv)))).
    + apply stored_sorted. rewrite map_map. cbn [fst]. assumption.
    + intros [k x] I. rewrite Forall_forall in *. cbn [fst snd]. destruct (H1 _ I) as [U K]. f_equal. apply (IH _ I K).
Qed.

(** ** Repaired strings are text *)
Lemma zb_byte c : zb (byte c) = c.
Proof. unfold zb, byte. rewrite Nat2Z.id. apply ascii_nat_embedding. Qed.
Lemma zb_is z c : z = byte c -> zb z = c.
Proof. intros ->. apply zb_byte. Qed.
Lemma utf8_size_scalar s n : utf8_size s = S n -> exists r, scalar r /\ firstn (S n) s = utf8_enc r.
Proof.
  unfold utf8_size, scalar, utf8_enc. destruct s as [|a r]; [discriminate|]. pose proof (byte_range a) as Ra.
  destruct (Z.ltb_spec (byte a) 128) as [H1|H1].
  { intros E; injection E as <-. exists (byte a). split; [lia|]. destruct (Z.ltb_spec (byte a) 128); [|lia]. cbn [firstn]. rewrite zb_byte. reflexivity. }
  destruct (Z.ltb_spec (byte a) 194) as [H2|H2]; [discriminate|].
  destruct (Z.ltb_spec (byte a) 224) as [H3|H3].
  { destruct r as [|b r]; [discriminate|]. destruct (in_rng 128 191 b) eqn:B1; [|discriminate]. intros E; injection E as <-. apply in_rng_spec in B1.
    exists ((byte a - 192) * 64 + (byte b - 128)). split; [lia|].
    destruct (Z.ltb_spec ((byte a - 192) * 64 + (byte b - 128)) 128); [lia|]. destruct (Z.ltb_spec ((byte a - 192) * 64 + (byte b - 128)) 2048); [|lia].
    set (r0 := (byte a - 192) * 64 + (byte b - 128)).
    assert (Ea : r0 / 64 = byte a - 192) by (symmetry; apply (Z.div_unique r0 64 _ (byte b - 128)); subst r0; lia).
    assert (Eb : r0 mod 64 = byte b - 128) by (symmetry; apply (Z.mod_unique r0 64 (byte a - 192)); subst r0; lia).
    rewrite Ea, Eb. cbn [firstn]. rewrite (zb_is _ a), (zb_is _ b) by lia. reflexivity. }
  destruct (Z.ltb_spec (byte a) 240) as [H4|H4].
  { destruct r as [|b [|c r]]; try discriminate. destruct (in_rng _ _ b) eqn:B1; [|discriminate]. destruct (in_rng 128 191 c) eqn:C1; [|discriminate]. cbn [andb]. intros E; injection E as <-.
    apply in_rng_spec in B1. apply in_rng_spec in C1.
    assert (Bb : 128 <= byte b <= 191 /\ (byte a = 224 -> 160 <= byte b) /\ (byte a = 237 -> byte b <= 159)) by (destruct (Z.eqb_spec (byte a) 224), (Z.eqb_spec (byte a) 237); lia). clear B1. destruct Bb as (Bb & X & Y).
    exists ((byte a - 224) * 4096 + (byte b - 128) * 64 + (byte c - 128)). set (r0 := (byte a - 224) * 4096 + (byte b - 128) * 64 + (byte c - 128)).
    split; [subst r0; destruct (Z_lt_le_dec (byte a) 237); [lia|destruct (Z.eq_dec (byte a) 237); lia]|].
    assert (L : 2048 <= r0 < 65536) by (subst r0; destruct (Z.eq_dec (byte a) 224); lia).
    destruct (Z.ltb_spec r0 128); [lia|]. destruct (Z.ltb_spec r0 2048); [lia|]. destruct (Z.ltb_spec r0 65536); [|lia].
    assert (Ea : r0 / 4096 = byte a - 224) by (symmetry; apply (Z.div_unique r0 4096 _ ((byte b - 128) * 64 + (byte c - 128))); subst r0; lia).
    assert (Eb : r0 / 64 = (byte a - 224) * 64 + (byte b - 128)) by (symmetry; apply (Z.div_unique r0 64 _ (byte c - 128)); subst r0; lia).
    assert (Ec : r0 mod 64 = byte c - 128) by (symmetry; apply (Z.mod_unique r0 64 ((byte a - 224) * 64 + (byte b - 128))); subst r0; lia).
    assert (Ed : ((byte a - 224) * 64 + (byte b - 128)) mod 64 = byte b - 128) by (symmetry; apply (Z.mod_unique _ 64 (byte a - 224)); lia).
    rewrite Ea, Eb, Ec, Ed. cbn [firstn]. rewrite (zb_is _ a), (zb_is _ b), (zb_is _ c) by lia. reflexivity. }
  destruct (Z.ltb_spec (byte a) 245) as [H5|H5]; [|discriminate].
  destruct r as [|b [|c [|d r]]]; try discriminate. destruct (in_rng _ _ b) eqn:B1; [|discriminate]. destruct (in_rng 128 191 c) eqn:C1; [|discriminate]. destruct (in_rng 128 191 d) eqn:D1; [|discriminate]. cbn [andb]. intros E; injection E as <-.
  apply in_rng_spec in B1. apply in_rng_spec in C1. apply in_rng_spec in D1.
  assert (Bb : 128 <= byte b <= 191 /\ (byte a = 240 -> 144 <= byte b) /\ (byte a = 244 -> byte b <= 143)) by (destruct (Z.eqb_spec (byte a) 240), (Z.eqb_spec (byte a) 244); lia). clear B1. destruct Bb as (Bb & X & Y).
  exists ((byte a - 240) * 262144 + (byte b - 128) * 4096 + (byte c - 128) * 64 + (byte d - 128)). set (r0 := (byte a - 240) * 262144 + (byte b - 128) * 4096 + (byte c - 128) * 64 + (byte d - 128)).
  assert (L : 65536 <= r0 < 1114112) by (subst r0; destruct (Z.eq_dec (byte a) 240); [lia|]; destruct (Z.eq_dec (byte a) 244); lia).
  split; [lia|]. destruct (Z.ltb_spec r0 128); [lia|]. destruct (Z.ltb_spec r0 2048); [lia|]. destruct (Z.ltb_spec r0 65536); [lia|].
  assert (Ea : r0 / 262144 = byte a - 240) by (symmetry; apply (Z.div_unique r0 262144 _ ((byte b - 128) * 4096 + (byte c - 128) * 64 + (byte d - 128))); subst r0; lia).
  assert (Eb : r0 / 4096 = (byte a - 240) * 64 + (byte b - 128)) by (symmetry; apply (Z.div_unique r0 4096 _ ((byte c - 128) * 64 + (byte d - 128))); subst r0; lia).
  assert (Ec : r0 / 64 = ((byte a - 240) * 64 + (byte b - 128)) * 64 + (byte c - 128)) by (symmetry; apply (Z.div_unique r0 64 _ (byte d - 128)); subst r0; lia).
  assert (Ed : r0 mod 64 = byte d - 128) by (symmetry; apply (Z.mod_unique r0 64 (((byte a - 240) * 64 + (byte b - 128)) * 64 + (byte c - 128))); subst r0; lia).
  assert (Fb : ((byte a - 240) * 64 + (byte b - 128)) mod 64 = byte b - 128) by (symmetry; apply (Z.mod_unique _ 64 (byte a - 240)); lia).
  assert (Fc : (((byte a - 240) * 64 + (byte b - 128)) * 64 + (byte c - 128)) mod 64 = byte c - 128) by (symmetry; apply (Z.mod_unique _ 64 ((byte a - 240) * 64 + (byte b - 128))); lia).
  rewrite Ea, Eb, Ec, Ed, Fb, Fc. cbn [firstn]. rewrite (zb_is _ a), (zb_is _ b), (zb_is _ c), (zb_is _ d) by lia. reflexivity.
Qed.
Lemma repaired_is_text s : utf8_text (repaired s).
Proof.
  unfold repaired. generalize (length s). intros n. revert s. induction n as [|n IH]; intros s; cbn [runes]; [exists []; split; [constructor|reflexivity]|].
  destruct s as [|c r]; [exists []; split; [constructor|reflexivity]|]. destruct (utf8_size (c :: r)) as [|k] eqn:E; cbn [flat_map].
  - destruct (IH r) as (rs & F & ->). exists (65533 :: rs). split; [constructor; [unfold scalar; lia|exact F]|reflexivity].
  - destruct (IH (skipn (S k) (c :: r))) as (rs & F & ->). destruct (utf8_size_scalar _ _ E) as (x & X & ->). exists (x :: rs). split; [constructor; assumption|reflexivity].
Qed.
Lemma repaired_changes s : ~ utf8_text s -> repaired s <> s.
Proof. intros N E. apply N. rewrite <- E. apply repaired_is_text. Qed.
