(** The scanner accepts the grammar. *)
From Verif Require Import GoBase GoBaseFacts IdModel TypeModel ParamModel JsonModel JsonSpec JsonProofs JsonGrammar.
From Coq Require Import Lia.
Open Scope Z_scope.

(** ** Numbers *)
Lemma ascii_byte c n : byte c = Z.of_nat n -> (n < 256)%nat -> c = ascii_of_nat n.
Proof. intros E L. rewrite <- (ascii_nat_embedding c). f_equal. unfold byte in E. lia. Qed.
Lemma span_sound s : forall a b, span_digits s = (a, b) -> s = a ++ b /\ Forall digit a /\ match b with c :: _ => ~ digit c | [] => True end.
Proof.
  induction s as [|c s IH]; intros a b E; cbn [span_digits] in E; [injection E as <- <-; split; [reflexivity|split; [constructor|exact I]]|].
  destruct (is_digit c) eqn:D.
  - destruct (span_digits s) as [a' b'] eqn:S. injection E as <- <-. destruct (IH a' b' eq_refl) as (-> & F & N). split; [reflexivity|]. split; [|exact N]. constructor; [apply in_rng_spec in D; exact D|exact F].
  - injection E as <- <-. split; [reflexivity|]. split; [constructor|]. intros X. unfold is_digit in D. assert (Y : in_rng 48 57 c = true) by (apply in_rng_spec; exact X). congruence.
Qed.
Lemma digit_is c : digit c -> is_digit c = true. Proof. intros H. apply in_rng_spec. exact H. Qed.
Lemma digits_is s : Forall digit s -> Forall (fun c => is_digit c = true) s. Proof. apply Forall_impl. exact digit_is. Qed.
Lemma num_sound s t r : scan_num s = Some (t, r) -> s = t ++ r /\ is_number t.
Proof.
  assert (K : forall sg s0, sg = [] \/ sg = B "-" -> match num_int s0 with Some (i, r1) => match num_frac r1 with Some (fr, r2) => match num_exp r2 with Some (e0, r3) => Some (sg ++ i ++ fr ++ e0, r3) | None => None end | None => None end | None => None end = Some (t, r) -> sg ++ s0 = t ++ r /\ is_number t).
  { intros sg s0 Hs E. destruct (num_int s0) as [[i r1]|] eqn:E1; [|discriminate]. destruct (num_frac r1) as [[fr r2]|] eqn:E2; [|discriminate]. destruct (num_exp r2) as [[e r3]|] eqn:E3; [|discriminate]. injection E as <- <-.
    assert (A1 : s0 = i ++ r1 /\ (i = B "0" \/ exists c d, i = c :: d /\ 49 <= byte c <= 57 /\ Forall digit d)).
    { destruct s0 as [|c s0]; [discriminate|]. cbn [num_int] in E1. destruct (Z.eqb_spec (byte c) 48) as [Z0|Z0].
      - injection E1 as <- <-. split; [reflexivity|]. left. rewrite (ascii_byte c 48 Z0 ltac:(lia)). reflexivity.
      - destruct (span_digits (c :: s0)) as [a b] eqn:S. destruct (span_sound _ _ _ S) as (A & F & _). destruct a as [|c' a]; [discriminate|]. injection E1 as <- <-. split; [exact A|]. right. exists c', a. injection A as -> A. inversion F as [|? ? D F']; subst. split; [reflexivity|]. split; [unfold digit in D; lia|exact F']. }
    assert (A2 : r1 = fr ++ r2 /\ (fr = [] \/ exists d, fr = B "." ++ d /\ digits d)).
    { destruct r1 as [|c r1']; cbn [num_frac] in E2; [injection E2 as <- <-; auto|]. destruct (Z.eqb_spec (byte c) 46) as [Z0|Z0]; [|injection E2 as <- <-; auto].
      destruct (span_digits r1') as [a b] eqn:S. destruct (span_sound _ _ _ S) as (A & F & _). destruct a as [|c' a]; [discriminate|]. injection E2 as <- <-. rewrite A. split; [reflexivity|]. right. exists (c' :: a). rewrite (ascii_byte c 46 Z0 ltac:(lia)). split; [reflexivity|]. split; [discriminate|exact F]. }
    assert (A3 : r2 = e ++ r3 /\ (e = [] \/ exists x s d, e = x ++ s ++ d /\ (x = B "e" \/ x = B "E") /\ (s = [] \/ s = B "+" \/ s = B "-") /\ digits d)).
    { destruct r2 as [|c r2']; cbn [num_exp] in E3; [injection E3 as <- <-; auto|]. destruct ((byte c =? 101) || (byte c =? 69)) eqn:Z0; [|injection E3 as <- <-; auto].
      assert (X : [c] = B "e" \/ [c] = B "E"). { apply orb_prop in Z0 as [Z0|Z0]; apply Z.eqb_eq in Z0; [left; rewrite (ascii_byte c 101 Z0 ltac:(lia))|right; rewrite (ascii_byte c 69 Z0 ltac:(lia))]; reflexivity. }
      assert (G : exists sg1 rr, match r2' with d :: r' => if (byte d =? 43) || (byte d =? 45) then ([d], r') else ([], r2') | [] => ([], r2') end = (sg1, rr) /\ r2' = sg1 ++ rr /\ (sg1 = [] \/ sg1 = B "+" \/ sg1 = B "-")).
      { destruct r2' as [|d r']; [exists [], []; auto|]. destruct ((byte d =? 43) || (byte d =? 45)) eqn:Z1; [|exists [], (d :: r'); auto]. exists [d], r'. split; [reflexivity|]. split; [reflexivity|].
        apply orb_prop in Z1 as [Z1|Z1]; apply Z.eqb_eq in Z1; right; [left; rewrite (ascii_byte d 43 Z1 ltac:(lia))|right; rewrite (ascii_byte d 45 Z1 ltac:(lia))]; reflexivity. }
      destruct G as (sg1 & rr & G1 & -> & G2). rewrite G1 in E3. destruct (span_digits rr) as [a b] eqn:S. destruct (span_sound _ _ _ S) as (A & F & _). destruct a as [|c' a]; [discriminate|]. injection E3 as <- <-. rewrite A. split; [cbn [app]; rewrite <- app_assoc; reflexivity|].
      right. exists [c], sg1, (c' :: a). split; [reflexivity|]. split; [exact X|]. split; [exact G2|]. split; [discriminate|exact F]. }
    destruct A1 as [-> A1], A2 as [-> A2], A3 as [-> A3]. split; [rewrite <- !app_assoc; reflexivity|]. exists sg, i, fr, e. auto. }
  intros E. unfold scan_num in E. destruct s as [|c s]; [discriminate|]. destruct (Z.eqb_spec (byte c) 45) as [Z0|Z0].
  - assert (C : [c] = B "-") by (rewrite (ascii_byte c 45 Z0 ltac:(lia)); reflexivity). rewrite <- C in K. exact (K [c] s (or_intror eq_refl) E).
  - exact (K [] (c :: s) (or_introl eq_refl) E).
Qed.
Lemma num_complete t : is_number t -> scan_num t = Some (t, []).
Proof.
  intros (sg & i & fr & e & -> & Hs & Hi & Hf & He).
  assert (X3 : num_exp e = Some (e, [])).
  { destruct He as [->|(x & s & d & -> & Hx & Hg & Nd & Fd)]; [reflexivity|]. assert (SD : span_digits d = (d, [])) by (apply span_all, digits_is, Fd). destruct d as [|c d]; [congruence|].
    assert (HC : (byte c =? 43) || (byte c =? 45) = false). { inversion Fd as [|? ? D _]; subst. unfold digit in D. destruct (Z.eqb_spec (byte c) 43); [lia|]. destruct (Z.eqb_spec (byte c) 45); [lia|reflexivity]. }
    assert (HX : exists x0, x = [x0] /\ (byte x0 =? 101) || (byte x0 =? 69) = true) by (destruct Hx as [->| ->]; [exists "e"%char|exists "E"%char]; split; reflexivity). destruct HX as (x0 & -> & HX).
    assert (HS : s = [] \/ exists g, s = [g] /\ (byte g =? 43) || (byte g =? 45) = true) by (destruct Hg as [->|[->| ->]]; [left; reflexivity|right; exists "+"%char; split; reflexivity|right; exists "-"%char; split; reflexivity]).
    cbn [app num_exp]. rewrite HX. destruct HS as [->|(g & -> & HG)]; cbn [app]; [rewrite HC|rewrite HG]; rewrite SD; reflexivity. }
  assert (N3 : match e with [] => True | c :: _ => byte c <> 46 /\ is_digit c = false end).
  { destruct He as [->|(x & s & d & -> & Hx & _)]; [exact I|]. destruct Hx as [->| ->]; cbn [app B list_ascii_of_string]; (split; [vm_compute; discriminate|vm_compute; reflexivity]). }
  assert (X2 : num_frac (fr ++ e) = Some (fr, e)).
  { destruct Hf as [->|(d & -> & Nd & Fd)].
    - cbn [app]. destruct e as [|c e']; [reflexivity|]. cbn [num_frac]. destruct (Z.eqb_spec (byte c) 46); [tauto|reflexivity].
    - cbn [app B list_ascii_of_string num_frac]. assert (SD : span_digits (d ++ e) = (d, e)).
      { clear -Fd N3. induction Fd as [|c d D _ IH]; cbn [app span_digits]; [destruct e as [|c e]; [reflexivity|]; cbn [span_digits]; destruct N3 as [_ ->]; reflexivity|]. rewrite (digit_is c D), IH. reflexivity. }
      change (byte "."%char =? 46) with true. cbv iota. rewrite SD. destruct d; [congruence|reflexivity]. }
  assert (N2 : match fr ++ e with [] => True | c :: _ => is_digit c = false end).
  { destruct Hf as [->|(d & -> & _)]; [cbn [app]; destruct e; tauto|]. vm_compute. reflexivity. }
  assert (X1 : num_int (i ++ fr ++ e) = Some (i, fr ++ e)).
  { destruct Hi as [->|(c & d & -> & Hc & Fd)]; [reflexivity|]. cbn [app num_int]. destruct (Z.eqb_spec (byte c) 48); [lia|].
    assert (SD : span_digits (c :: d ++ fr ++ e) = (c :: d, fr ++ e)).
    { assert (Fc : Forall digit (c :: d)) by (constructor; [unfold digit; lia|exact Fd]). change (c :: d ++ fr ++ e) with ((c :: d) ++ fr ++ e). clear -Fc N2. induction Fc as [|c0 d0 D _ IH]; cbn [app span_digits]; [destruct (fr ++ e) as [|c1 e1]; [reflexivity|]; cbn [span_digits]; rewrite N2; reflexivity|]. rewrite (digit_is c0 D), IH. reflexivity. }
    rewrite SD. reflexivity. }
  unfold scan_num. destruct Hs as [->| ->].
  - cbn [app]. assert (H : exists c r, i ++ fr ++ e = c :: r /\ byte c <> 45).
    { destruct Hi as [->|(c & d & -> & Hc & _)]; [exists "0"%char, (fr ++ e); split; [reflexivity|vm_compute; discriminate]|]. exists c, (d ++ fr ++ e). split; [reflexivity|lia]. }
    destruct H as (c & r & Ec & Nc). rewrite Ec. destruct (Z.eqb_spec (byte c) 45); [contradiction|]. rewrite <- Ec, X1, X2, X3. reflexivity.
  - cbn [app B list_ascii_of_string]. change (byte "-"%char =? 45) with true. cbv iota. rewrite X1, X2, X3. reflexivity.
Qed.

(** ** Strings *)
Lemma before_quote p : Forall (fun c => byte c <> 34) p -> forall s r t, s ++ dquote :: r = p ++ t -> exists t', s = p ++ t'.
Proof.
  induction 1 as [|c p N _ IH]; intros s r t E; [exists s; reflexivity|]. destruct s as [|d s]; cbn [app] in E; injection E as E1 E2; [exfalso; apply N; rewrite <- E1; reflexivity|]. subst d.
  destruct (IH s r t E2) as (t' & ->). exists t'. reflexivity.
Qed.
Lemma enc_head r : scalar r -> exists c t, utf8_enc r = c :: t /\ (0 <= r < 128 /\ byte c = r \/ 128 <= r /\ 128 <= byte c).
Proof.
  intros H. unfold utf8_enc. assert (P : 0 <= r < 1114112) by (unfold scalar in H; lia).
  destruct (Z.ltb_spec r 128). { exists (zb r), []. split; [reflexivity|]. left. split; [lia|apply byte_zb; lia]. }
  assert (D1 : 0 <= r / 64 < 32 \/ 2048 <= r) by (destruct (Z.le_gt_cases 2048 r); [lia|left; split; [apply Z.div_pos; lia|apply Z.div_lt_upper_bound; lia]]).
  destruct (Z.ltb_spec r 2048). { eexists _, _. split; [reflexivity|]. right. split; [lia|]. rewrite byte_zb; lia. }
  assert (D2 : 0 <= r / 4096 < 16 \/ 65536 <= r) by (destruct (Z.le_gt_cases 65536 r); [lia|left; split; [apply Z.div_pos; lia|apply Z.div_lt_upper_bound; lia]]).
  destruct (Z.ltb_spec r 65536). { eexists _, _. split; [reflexivity|]. right. split; [lia|]. rewrite byte_zb; lia. }
  assert (D3 : 0 <= r / 262144 < 16) by (split; [apply Z.div_pos; lia|apply Z.div_lt_upper_bound; lia]).
  eexists _, _. split; [reflexivity|]. right. split; [lia|]. rewrite byte_zb; lia.
Qed.
Lemma enc_no_quote r : scalar r -> r <> 34 -> Forall (fun c => byte c <> 34) (utf8_enc r).
Proof.
  intros H N. assert (P : 0 <= r < 1114112) by (unfold scalar in H; lia). unfold utf8_enc.
  assert (M : forall z, byte (zb (128 + z mod 64)) <> 34) by (intros z; pose proof (Z.mod_pos_bound z 64 ltac:(lia)); rewrite byte_zb; lia).
  destruct (Z.ltb_spec r 128). { constructor; [rewrite byte_zb; lia|constructor]. }
  assert (D1 : 0 <= r / 64 < 32 \/ 2048 <= r) by (destruct (Z.le_gt_cases 2048 r); [lia|left; split; [apply Z.div_pos; lia|apply Z.div_lt_upper_bound; lia]]).
  destruct (Z.ltb_spec r 2048). { constructor; [rewrite byte_zb; lia|]. repeat (constructor; [apply M|]). constructor. }
  assert (D2 : 0 <= r / 4096 < 16 \/ 65536 <= r) by (destruct (Z.le_gt_cases 65536 r); [lia|left; split; [apply Z.div_pos; lia|apply Z.div_lt_upper_bound; lia]]).
  destruct (Z.ltb_spec r 65536). { constructor; [rewrite byte_zb; lia|]. repeat (constructor; [apply M|]). constructor. }
  assert (D3 : 0 <= r / 262144 < 16) by (split; [apply Z.div_pos; lia|apply Z.div_lt_upper_bound; lia]).
  constructor; [rewrite byte_zb; lia|]. repeat (constructor; [apply M|]). constructor.
Qed.
Lemma size_none c s : utf8_size (c :: s) = O -> forall r t, scalar r -> c :: s <> utf8_enc r ++ t.
Proof. intros Z r t H E. rewrite E, (utf8_size_enc r t H) in Z. pose proof (utf8_enc_nonempty r). destruct (utf8_enc r); [congruence|discriminate]. Qed.
Lemma size_bad c s r : 128 <= byte c -> (forall k t, scalar k -> c :: s <> utf8_enc k ++ t) -> utf8_size ((c :: s) ++ dquote :: r) = O.
Proof.
  intros C H. destruct (utf8_size ((c :: s) ++ dquote :: r)) as [|n] eqn:E; [reflexivity|]. exfalso. destruct (utf8_size_scalar _ _ E) as (k & Sk & F).
  assert (N : k <> 34). { intros ->. cbn [app firstn] in F. destruct n; vm_compute (utf8_enc 34) in F; injection F as F; subst c; vm_compute in C; apply C; reflexivity. }
  pose proof (firstn_skipn (S n) ((c :: s) ++ dquote :: r)) as K. rewrite F in K. destruct (before_quote _ (enc_no_quote k Sk N) (c :: s) r _ (eq_sym K)) as (t' & X). exact (H k t' Sk X).
Qed.
Lemma hex_iff c n : hex_val c = Some n <-> hex c n.
Proof.
  unfold hex_val, hex. cbv zeta. destruct (in_rng 48 57 c) eqn:A.
  - apply in_rng_spec in A. split; [intros [= <-]; auto|]. intros [[_ ->]|[[X _]|[X _]]]; [reflexivity|lia|lia].
  - assert (NA : ~ 48 <= byte c <= 57) by (intros X; apply in_rng_spec in X; congruence). destruct (in_rng 97 102 c) eqn:A2.
    + apply in_rng_spec in A2. split; [intros [= <-]; auto|]. intros [[X _]|[[_ ->]|[X _]]]; [lia|reflexivity|lia].
    + assert (NA2 : ~ 97 <= byte c <= 102) by (intros X; apply in_rng_spec in X; congruence). destruct (in_rng 65 70 c) eqn:A3.
      * apply in_rng_spec in A3. split; [intros [= <-]; auto|]. intros [[X _]|[[X _]|[_ ->]]]; [lia|lia|reflexivity].
      * assert (NA3 : ~ 65 <= byte c <= 70) by (intros X; apply in_rng_spec in X; congruence). split; [discriminate|]. intros [[X _]|[[X _]|[X _]]]; lia.
Qed.
Lemma u4_sound s u r : u4 s = Some (u, r) -> exists h, s = h ++ r /\ hex4 h u.
Proof.
  destruct s as [|a [|b [|c [|d s]]]]; try discriminate. cbn [u4]. destruct (hex_val a) as [w|] eqn:A; [|discriminate]. destruct (hex_val b) as [x|] eqn:B0; [|discriminate]. destruct (hex_val c) as [y|] eqn:C; [|discriminate]. destruct (hex_val d) as [z|] eqn:D; [|discriminate].
  intros E. injection E as E <-. exists [a; b; c; d]. split; [reflexivity|]. apply hex_iff in A, B0, C, D. exists a, b, c, d, w, x, y, z. repeat (split; [assumption || reflexivity|]). lia.
Qed.
Lemma u4_complete h u r : hex4 h u -> u4 (h ++ r) = Some (u, r).
Proof.
  intros (a & b & c & d & w & x & y & z & -> & A & B0 & C & D & ->). apply hex_iff in A, B0, C, D. cbn [app u4]. rewrite A, B0, C, D. do 2 f_equal. lia.
Qed.
Lemma hex4_no_quote h u : hex4 h u -> Forall (fun c => byte c <> 34) (uxxxx h).
Proof.
  intros (a & b & c & d & w & x & y & z & -> & A & B0 & C & D & _). assert (K : forall c n, hex c n -> byte c <> 34) by (unfold hex; intros; lia).
  unfold uxxxx. cbn [B list_ascii_of_string app]. repeat (constructor; [first [vm_compute; discriminate|eapply K; eassumption]|]). constructor.
Qed.
Lemma hex4_range h u : hex4 h u -> 0 <= u < 65536.
Proof. intros (a & b & c & d & w & x & y & z & _ & A & B0 & C & D & ->). unfold hex in *. lia. Qed.
Lemma second_sound u s v r : second_half u s = Some (v, r) -> surrogate u = true -> high u /\ exists h l, s = uxxxx h ++ r /\ hex4 h l /\ low l /\ v = joined u l.
Proof.
  destruct s as [|b [|e s]]; try discriminate. cbn [second_half]. destruct (Z.eqb_spec (byte b) 92) as [Hb|]; [|discriminate]. destruct (Z.eqb_spec (byte e) 117) as [He|]; [|discriminate]. cbn [andb].
  destruct (u4 s) as [[l r']|] eqn:U; [|discriminate]. destruct ((u <? 56320) && (56320 <=? l) && (l <? 57344)) eqn:R; [|discriminate]. intros E. injection E as <- <-. intros Su. unfold surrogate in Su.
  apply andb_prop in R as [R R3]. apply andb_prop in R as [R1 R2]. apply andb_prop in Su as [S1 _]. apply Z.ltb_lt in R1, R3. apply Z.leb_le in R2, S1. split; [unfold high; lia|].
  destruct (u4_sound _ _ _ U) as (h & -> & H). exists h, l. rewrite (ascii_byte b 92 Hb ltac:(lia)), (ascii_byte e 117 He ltac:(lia)). split; [reflexivity|]. split; [exact H|]. split; [unfold low; lia|unfold joined; lia].
Qed.
Lemma second_complete u h l r : high u -> hex4 h l -> low l -> second_half u (uxxxx h ++ r) = Some (joined u l, r).
Proof.
  intros Hu H L. unfold uxxxx. rewrite <- app_assoc. cbn [B list_ascii_of_string app second_half]. change ((byte "\"%char =? 92) && (byte "u"%char =? 117)) with true. cbv iota. rewrite (u4_complete h l r H).
  unfold high, low in *. replace (u <? 56320) with true by (symmetry; apply Z.ltb_lt; lia). replace (56320 <=? l) with true by (symmetry; apply Z.leb_le; lia). replace (l <? 57344) with true by (symmetry; apply Z.ltb_lt; lia). cbn [andb]. do 2 f_equal. unfold joined. lia.
Qed.
Lemma esc_sound c x : simple_esc c = Some x -> exists n, x = [zb n] /\ escape c n.
Proof.
  unfold simple_esc, escape. cbv zeta. intros E. destruct (Z.eqb_spec (byte c) 34) as [H|]; [|destruct (Z.eqb_spec (byte c) 92) as [H|]; [|destruct (Z.eqb_spec (byte c) 47) as [H|]]]; cbn [orb] in E.
  1-3: injection E as <-; rewrite (ascii_byte c (Z.to_nat (byte c))) by (rewrite H; vm_compute; (reflexivity || lia)); rewrite H; eexists; (split; [reflexivity|]); vm_compute; tauto.
  destruct (Z.eqb_spec (byte c) 98) as [H|]; [injection E as <-; rewrite (ascii_byte c 98 H ltac:(lia)); eexists; split; [reflexivity|]; vm_compute; tauto|].
  destruct (Z.eqb_spec (byte c) 102) as [H|]; [injection E as <-; rewrite (ascii_byte c 102 H ltac:(lia)); eexists; split; [reflexivity|]; vm_compute; tauto|].
  destruct (Z.eqb_spec (byte c) 110) as [H|]; [injection E as <-; rewrite (ascii_byte c 110 H ltac:(lia)); eexists; split; [reflexivity|]; vm_compute; tauto|].
  destruct (Z.eqb_spec (byte c) 114) as [H|]; [injection E as <-; rewrite (ascii_byte c 114 H ltac:(lia)); eexists; split; [reflexivity|]; vm_compute; tauto|].
  destruct (Z.eqb_spec (byte c) 116) as [H|]; [injection E as <-; rewrite (ascii_byte c 116 H ltac:(lia)); eexists; split; [reflexivity|]; vm_compute; tauto|]. discriminate.
Qed.
Lemma esc_complete c n : escape c n -> simple_esc c = Some [zb n].
Proof. unfold escape. cbn [In]. intros H. repeat destruct H as [H|H]; try (injection H as <- <-; reflexivity). destruct H. Qed.
Lemma unquote_sound f : forall s x r, unquote f s = Some (x, r) -> exists b, s = b ++ dquote :: r /\ chars b x.
Proof.
  assert (AD : forall a o x r, add_to a o = Some (x, r) -> exists y, o = Some (y, r) /\ x = a ++ y) by (intros a [[y r']|] x r E; [injection E as <- <-; eauto|discriminate]).
  induction f as [|f IH]; intros s x r E; [discriminate|]. cbn [unquote] in E. destruct s as [|c s]; [discriminate|]. destruct (Z.eqb_spec (byte c) 34) as [H34|N34].
  { injection E as <- <-. exists []. rewrite (ascii_byte c 34 H34 ltac:(lia)). split; [reflexivity|constructor]. }
  destruct (Z.eqb_spec (byte c) 92) as [H92|N92].
  - rewrite (ascii_byte c 92 H92 ltac:(lia)). destruct s as [|e s]; [discriminate|]. destruct (simple_esc e) as [y|] eqn:SE.
    { apply AD in E as (z & U & ->). destruct (IH _ _ _ U) as (b & -> & Cb). destruct (esc_sound _ _ SE) as (n & -> & En). exists (ascii_of_nat 92 :: e :: b). split; [reflexivity|]. exact (ch_escape e n b z En Cb). }
    destruct (Z.eqb_spec (byte e) 117) as [He|]; [|discriminate]. rewrite (ascii_byte e 117 He ltac:(lia)). destruct (u4 s) as [[u r2]|] eqn:U4; [|discriminate]. destruct (u4_sound _ _ _ U4) as (h & -> & Hh).
    change (ascii_of_nat 92 :: ascii_of_nat 117 :: h ++ r2) with (uxxxx h ++ r2). destruct (surrogate u) eqn:Su.
    + assert (HL : high u \/ low u). { unfold surrogate in Su. apply andb_prop in Su as [S1 S2]. apply Z.leb_le in S1. apply Z.ltb_lt in S2. unfold high, low. lia. }
      destruct (second_half u r2) as [[v r3]|] eqn:S2.
      * apply AD in E as (z & U & ->). destruct (second_sound _ _ _ _ S2 Su) as (Hu & h' & l & -> & Hl & Ll & ->). destruct (IH _ _ _ U) as (b & -> & Cb). exists (uxxxx h ++ uxxxx h' ++ b). rewrite <- !app_assoc. split; [reflexivity|]. exact (ch_pair h u h' l b z Hh Hu Hl Ll Cb).
      * apply AD in E as (z & U & ->). destruct (IH _ _ _ U) as (b & -> & Cb). exists (uxxxx h ++ b). rewrite <- app_assoc. split; [reflexivity|]. refine (ch_half h u b z Hh HL _ Cb). intros Hu h' v t Hv Lv ->. rewrite <- app_assoc, (second_complete u h' v _ Hu Hv Lv) in S2. discriminate.
    + apply AD in E as (z & U & ->). destruct (IH _ _ _ U) as (b & -> & Cb). exists (uxxxx h ++ b). rewrite <- app_assoc. split; [reflexivity|].
      assert (NS : ~ 55296 <= u < 57344). { intros [X Y]. unfold surrogate in Su. apply Z.leb_le in X. apply Z.ltb_lt in Y. rewrite X, Y in Su. discriminate. }
      apply (ch_unicode h u b z Hh); [unfold high; lia|unfold low; lia|exact Cb].
  - destruct (Z.ltb_spec (byte c) 32) as [|G32]; [discriminate|]. destruct (utf8_size (c :: s)) as [|n] eqn:Sz.
    + apply AD in E as (z & U & ->). destruct (IH _ _ _ U) as (b & -> & Cb). exists (c :: b). split; [reflexivity|]. apply ch_bad; [|intros k t Sk X; apply (size_none _ _ Sz k (t ++ dquote :: r) Sk); rewrite app_assoc, <- X; reflexivity|exact Cb].
      cbn [utf8_size] in Sz. destruct (Z.ltb_spec (byte c) 128); [discriminate|lia].
    + apply AD in E as (z & U & ->). destruct (IH _ _ _ U) as (b & Eb & Cb). destruct (utf8_size_scalar _ _ Sz) as (k & Sk & F). exists (utf8_enc k ++ b). pose proof (firstn_skipn (S n) (c :: s)) as K. rewrite F in K |- *. rewrite Eb in K. split; [rewrite <- app_assoc; symmetry; exact K|].
      destruct (enc_head k Sk) as (c' & t' & Ek & Hk). assert (c' = c). { rewrite Ek in K. cbn [app] in K. injection K as K _. exact K. } subst c'. apply ch_char; [exact Sk|lia|lia|lia|exact Cb].
Qed.
Lemma unquote_complete b x : chars b x -> forall f r, (length b < f)%nat -> unquote f (b ++ dquote :: r) = Some (x, r).
Proof.
  induction 1 as [|k s x Sk G N34 N92 _ IH|c s x G H _ IH|c n s x E _ IH|h u s x Hh Nh Nl _ IH|h u h' v s x Hh Hu Hv Lv _ IH|h u s x Hh HL HN _ IH]; intros [|f] r L; try (cbn [length] in L; lia).
  - reflexivity.
  - destruct (enc_head k Sk) as (c & t & Ek & Hk). pose proof (utf8_size_enc k (s ++ dquote :: r) Sk) as Sz. rewrite <- app_assoc. rewrite app_length, Ek in L. cbn [length] in L.
    assert (X : utf8_enc k ++ s ++ dquote :: r = c :: t ++ s ++ dquote :: r) by (rewrite Ek; reflexivity). rewrite X in Sz |- *. cbn [unquote]. destruct (Z.eqb_spec (byte c) 34); [lia|]. destruct (Z.eqb_spec (byte c) 92); [lia|]. destruct (Z.ltb_spec (byte c) 32); [lia|].
    rewrite Sz, Ek. cbn [length]. change (c :: t ++ s ++ dquote :: r) with ((c :: t) ++ s ++ dquote :: r). rewrite firstn_app, skipn_app. change (S (length t)) with (length (c :: t)). rewrite firstn_all, skipn_all, Nat.sub_diag, firstn_O, skipn_O, app_nil_r. cbn [app]. change (c :: t ++ x) with ((c :: t) ++ x).
    rewrite IH by lia. reflexivity.
  - pose proof (size_bad c s r G H) as Sz. cbn [app] in Sz |- *. cbn [length] in L. cbn [unquote]. destruct (Z.eqb_spec (byte c) 34); [lia|]. destruct (Z.eqb_spec (byte c) 92); [lia|]. destruct (Z.ltb_spec (byte c) 32); [lia|]. rewrite Sz, IH by lia. reflexivity.
  - cbn [app length] in *. cbn [unquote]. change (byte (ascii_of_nat 92) =? 34) with false. change (byte (ascii_of_nat 92) =? 92) with true. cbv iota. rewrite (esc_complete c n E), IH by lia. reflexivity.
  - unfold uxxxx in *. rewrite <- !app_assoc. cbn [B list_ascii_of_string app length] in *. rewrite !app_length in L. cbn [unquote]. change (byte "\"%char =? 34) with false. change (byte "\"%char =? 92) with true. cbv iota. change (simple_esc "u"%char) with (@None bytes). change (byte "u"%char =? 117) with true. cbv iota. rewrite (u4_complete h u _ Hh).
    assert (Su : surrogate u = false). { unfold surrogate, high, low in *. destruct (Z.leb_spec 55296 u); [|reflexivity]. destruct (Z.ltb_spec u 57344); [lia|reflexivity]. } rewrite Su, IH by (cbn [length] in L; lia). reflexivity.
  - rewrite <- !app_assoc. assert (X : uxxxx h ++ uxxxx h' ++ s ++ dquote :: r = "\"%char :: "u"%char :: h ++ uxxxx h' ++ s ++ dquote :: r) by reflexivity. rewrite X. unfold uxxxx at 1 2 in L. rewrite !app_length in L. cbn [B list_ascii_of_string length] in L. cbn [unquote]. change (byte "\"%char =? 34) with false. change (byte "\"%char =? 92) with true. cbv iota. change (simple_esc "u"%char) with (@None bytes). change (byte "u"%char =? 117) with true. cbv iota. rewrite (u4_complete h u _ Hh).
    assert (Su : surrogate u = true). { unfold surrogate, high in *. replace (55296 <=? u) with true by (symmetry; apply Z.leb_le; lia). apply Z.ltb_lt. lia. } rewrite Su, (second_complete u h' v _ Hu Hv Lv), IH by lia. reflexivity.
  - assert (X : (uxxxx h ++ s) ++ dquote :: r = "\"%char :: "u"%char :: h ++ s ++ dquote :: r) by (rewrite <- app_assoc; reflexivity). rewrite X. unfold uxxxx in L. rewrite !app_length in L. cbn [B list_ascii_of_string length] in L. cbn [unquote]. change (byte "\"%char =? 34) with false. change (byte "\"%char =? 92) with true. cbv iota. change (simple_esc "u"%char) with (@None bytes). change (byte "u"%char =? 117) with true. cbv iota. rewrite (u4_complete h u _ Hh).
    assert (Su : surrogate u = true). { unfold surrogate, high, low in *. replace (55296 <=? u) with true by (symmetry; apply Z.leb_le; lia). apply Z.ltb_lt. lia. } rewrite Su.
    destruct (second_half u (s ++ dquote :: r)) as [[v r3]|] eqn:S2; [|rewrite IH by lia; reflexivity]. exfalso. destruct (second_sound _ _ _ _ S2 Su) as (Hu & h' & l & Es & Hl & Ll & _). destruct (before_quote _ (hex4_no_quote h' l Hl) _ _ _ Es) as (t & Et). exact (HN Hu h' l t Hl Ll Et).
Qed.
