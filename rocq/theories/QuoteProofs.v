(** A text in quotes as JSON: when it is read back as that very text. *)
From Verif Require Import GoBase GoBaseFacts IdModel TypeModel TypeSpec ParamModel JsonModel JsonSpec JsonProofs.
Open Scope Z_scope.

(** One step of reading a quoted text that ends in a quote: what is consumed and
    what it stands for. *)
Inductive piece (tail : bytes) : bytes -> bytes -> Prop :=
| pc_unit w r : scalar r -> w = utf8_enc r -> Forall (fun c => 32 <= byte c /\ byte c <> 34 /\ byte c <> 92) w -> (exists c w', w = c :: w') -> piece tail w w
| pc_esc e w out : Forall (fun c => byte c < 128) (e :: w) -> (exists x, byte x < 128 /\ out = [x]) \/ (exists x o, 128 <= byte x /\ out = x :: o) -> piece tail (ch 92 :: e :: w) out
| pc_bad b : 128 <= byte b -> utf8_size (b :: tail) = 0%nat -> piece tail [b] replacement.

Lemma byte_inj a b : byte a = byte b -> a = b.
Proof. intros H. rewrite <- (zb_byte a), <- (zb_byte b), H. reflexivity. Qed.
Lemma hex_low128 c d : hex_val c = Some d -> byte c < 128 /\ 0 <= d < 16.
Proof.
  unfold hex_val. destruct (in_rng 48 57 c) eqn:E1; [apply in_rng_spec in E1; intros [= <-]; lia|]. destruct (in_rng 97 102 c) eqn:E2; [apply in_rng_spec in E2; intros [= <-]; lia|].
  destruct (in_rng 65 70 c) eqn:E3; [apply in_rng_spec in E3; intros [= <-]; lia|discriminate].
Qed.
Lemma hex_quote : hex_val dquote = None. Proof. reflexivity. Qed.
Lemma u4_quote z u r : u4 (z ++ [dquote]) = Some (u, r) -> exists w z', z = w ++ z' /\ r = z' ++ [dquote] /\ Forall (fun c => byte c < 128) w /\ 0 <= u < 65536.
Proof.
  intros H. destruct z as [|a [|b [|c [|d z]]]]; cbn [app u4] in H; try discriminate H.
  - destruct (hex_val a), (hex_val b), (hex_val c); rewrite ?hex_quote in H; discriminate H.
  - destruct (hex_val a) as [ha|] eqn:Ea; [|discriminate H]. destruct (hex_val b) as [hb|] eqn:Eb; [|discriminate H]. destruct (hex_val c) as [hc|] eqn:Ec; [|discriminate H].
    destruct (hex_val d) as [hd|] eqn:Ed; [|discriminate H]. injection H as H <-. apply hex_low128 in Ea, Eb, Ec, Ed. exists [a; b; c; d], z.
    split; [reflexivity|]. split; [reflexivity|]. split; [repeat constructor; lia|lia].
Qed.
Lemma simple_esc_out e x : simple_esc e = Some x -> byte e < 128 /\ exists y, byte y < 128 /\ x = [y].
Proof.
  unfold simple_esc. destruct (Z.eqb_spec (byte e) 34); [intros [= <-]; split; [lia|exists e; split; [lia|reflexivity]]|].
  destruct (Z.eqb_spec (byte e) 92); [intros [= <-]; split; [lia|exists e; split; [lia|reflexivity]]|].
  destruct (Z.eqb_spec (byte e) 47); [intros [= <-]; split; [lia|exists e; split; [lia|reflexivity]]|]. cbn [orb].
  destruct (Z.eqb_spec (byte e) 98); [intros [= <-]; split; [lia|exists (zb 8); split; [vm_compute; reflexivity|reflexivity]]|].
  destruct (Z.eqb_spec (byte e) 102); [intros [= <-]; split; [lia|exists (zb 12); split; [vm_compute; reflexivity|reflexivity]]|].
  destruct (Z.eqb_spec (byte e) 110); [intros [= <-]; split; [lia|exists (zb 10); split; [vm_compute; reflexivity|reflexivity]]|].
  destruct (Z.eqb_spec (byte e) 114); [intros [= <-]; split; [lia|exists (zb 13); split; [vm_compute; reflexivity|reflexivity]]|].
  destruct (Z.eqb_spec (byte e) 116); [intros [= <-]; split; [lia|exists (zb 9); split; [vm_compute; reflexivity|reflexivity]]|discriminate].
Qed.
Lemma utf8_enc_head u : 0 <= u < 1114112 -> (exists x, byte x < 128 /\ utf8_enc u = [x]) \/ (exists x o, 128 <= byte x /\ utf8_enc u = x :: o).
Proof.
  intros R. unfold utf8_enc. destruct (Z.ltb_spec u 128); [left; exists (zb u); split; [rewrite byte_zb; lia|reflexivity]|]. right.
  destruct (Z.ltb_spec u 2048); [eexists _, _; split; [|reflexivity]; rewrite byte_zb; Z.to_euclidean_division_equations; lia|].
  destruct (Z.ltb_spec u 65536); [eexists _, _; split; [|reflexivity]; rewrite byte_zb; Z.to_euclidean_division_equations; lia|].
  eexists _, _; split; [|reflexivity]; rewrite byte_zb; Z.to_euclidean_division_equations; lia.
Qed.
Lemma add_to_some a o b r : add_to a o = Some (b, r) -> exists b', o = Some (b', r) /\ b = a ++ b'.
Proof. destruct o as [[b' r']|]; [|discriminate]. intros [= <- <-]. eauto. Qed.
Lemma high_not_quote w z n : Forall (fun c => 128 <= byte c) w -> w = firstn n (z ++ [dquote]) -> (n <= length (z ++ [dquote]))%nat -> w = firstn n z /\ (n <= length z)%nat.
Proof.
  intros H E L. rewrite app_length in L. cbn [length] in L. destruct (Nat.le_gt_cases n (length z)) as [K|K].
  - split; [|exact K]. rewrite E, firstn_app. replace (n - length z)%nat with 0%nat by lia. rewrite app_nil_r. reflexivity.
  - exfalso. assert (n = S (length z)) as -> by lia. rewrite firstn_app, firstn_all2 in E by lia. replace (S (length z) - length z)%nat with 1%nat in E by lia.
    rewrite E in H. apply Forall_app in H as [_ H]. inversion H as [|? ? H0]. change (byte dquote) with 34 in H0. lia.
Qed.

Lemma unquote_step f y x : unquote f (y ++ [dquote]) = Some (x, []) ->
  (y = [] /\ x = []) \/ exists f' w out y' x', (f' < f)%nat /\ y = w ++ y' /\ x = out ++ x' /\ unquote f' (y' ++ [dquote]) = Some (x', []) /\ piece (y' ++ [dquote]) w out.
Proof.
  destruct f as [|f]; [discriminate|]. destruct y as [|c y]; [cbn [app unquote]; change (byte dquote =? 34) with true; cbv iota; intros [= <-]; left; split; reflexivity|].
  intros H. right. exists f. remember (unquote f) as uq eqn:Q. cbn [app unquote] in H. rewrite <- Q in H. destruct (Z.eqb_spec (byte c) 34) as [C1|C1]; [injection H as _ H; destruct y; discriminate H|].
  destruct (Z.eqb_spec (byte c) 92) as [C2|C2].
  { assert (c = ch 92) as -> by (apply byte_inj; exact C2). destruct y as [|e y].
    { cbn [app] in H. change (simple_esc dquote) with (Some [dquote]) in H. cbv iota in H. rewrite Q in H. destruct f; discriminate H. }
    cbn [app] in H. destruct (simple_esc e) as [o|] eqn:Es.
    { apply simple_esc_out in Es as (Le & z & Lz & ->). apply add_to_some in H as (x' & H & ->). exists [ch 92; e], [z], y, x'. split; [lia|]. split; [reflexivity|]. split; [reflexivity|]. split; [exact H|].
      apply (pc_esc _ e [] [z]); [repeat constructor; exact Le|left; exists z; split; [exact Lz|reflexivity]]. }
    destruct (Z.eqb_spec (byte e) 117) as [Ce|]; [|discriminate H]. destruct (u4 (y ++ [dquote])) as [[u r2]|] eqn:U; [|discriminate H].
    apply u4_quote in U as (w & y' & -> & -> & Lw & Ru). destruct (surrogate u) eqn:Su.
    - destruct (second_half u (y' ++ [dquote])) as [[v r3]|] eqn:S2.
      + apply add_to_some in H as (x' & H & ->). destruct y' as [|b y']; [discriminate S2|]. destruct y' as [|e2 y'].
        { cbn [app second_half] in S2. change (byte dquote =? 117) with false in S2. rewrite Bool.andb_false_r in S2. discriminate S2. }
        cbn [app second_half] in S2. destruct (Z.eqb_spec (byte b) 92) as [Cb|]; [|discriminate S2]. destruct (Z.eqb_spec (byte e2) 117) as [Ce2|]; [|discriminate S2]. cbn [andb] in S2.
        destruct (u4 (y' ++ [dquote])) as [[v0 r']|] eqn:U2; [|discriminate S2]. apply u4_quote in U2 as (w2 & y2 & -> & -> & Lw2 & Rv).
        destruct (Z.ltb_spec u 56320) as [Hu|]; [|discriminate S2]. destruct (Z.leb_spec 56320 v0) as [Hv|]; [|discriminate S2]. destruct (Z.ltb_spec v0 57344) as [Hv2|]; [|discriminate S2]. cbn [andb] in S2.
        injection S2 as <- <-. exists (ch 92 :: e :: w ++ b :: e2 :: w2), (utf8_enc ((u - 55296) * 1024 + (v0 - 56320) + 65536)), y2, x'.
        unfold surrogate in Su. apply andb_true_iff in Su as [Su _]. apply Z.leb_le in Su.
        split; [lia|]. split; [cbn [app]; rewrite <- app_assoc; reflexivity|]. split; [reflexivity|]. split; [exact H|]. apply pc_esc; [|apply utf8_enc_head; lia].
        constructor; [lia|]. apply Forall_app. split; [exact Lw|]. constructor; [lia|]. constructor; [lia|exact Lw2].
      + apply add_to_some in H as (x' & H & ->). exists (ch 92 :: e :: w), replacement, y', x'. split; [lia|]. split; [reflexivity|]. split; [reflexivity|]. split; [exact H|].
        apply pc_esc; [constructor; [lia|exact Lw]|]. right. eexists _, _. split; [|reflexivity]. vm_compute. discriminate.
    - apply add_to_some in H as (x' & H & ->). exists (ch 92 :: e :: w), (utf8_enc u), y', x'. split; [lia|]. split; [reflexivity|]. split; [reflexivity|]. split; [exact H|].
      apply pc_esc; [constructor; [lia|exact Lw]|apply utf8_enc_head; lia]. }
  destruct (Z.ltb_spec (byte c) 32) as [|C3]; [discriminate H|].
  destruct (utf8_size (c :: y ++ [dquote])) as [|n] eqn:N.
  - apply add_to_some in H as (x' & H & ->). exists [c], replacement, y, x'. split; [lia|]. split; [reflexivity|]. split; [reflexivity|]. split; [exact H|]. apply pc_bad; [|exact N].
    unfold utf8_size in N. destruct (Z.ltb_spec (byte c) 128); [discriminate N|assumption].
  - apply add_to_some in H as (x' & H & ->). destruct (utf8_size_scalar _ _ N) as (r & Sr & Er). destruct (utf8_size_unit _ _ N) as [Ln [(c0 & E0 & L0)|(L2 & Hi & _)]].
    + assert (n = 0%nat /\ c0 = c) as [-> ->]. { cbn [firstn] in E0. injection E0 as -> E0. split; [|reflexivity]. destruct n; [reflexivity|]. exfalso. destruct y; discriminate E0. }
      exists [c], [c], y, x'. split; [lia|]. split; [reflexivity|]. split; [reflexivity|]. split; [exact H|]. cbn [firstn] in Er. apply (pc_unit _ _ r Sr Er); [constructor; [lia|constructor]|eauto].
    + change (c :: y ++ [dquote]) with ((c :: y) ++ [dquote]) in *. destruct (high_not_quote _ (c :: y) (S n) Hi eq_refl Ln) as [Ew Lw].
      exists (firstn (S n) (c :: y)), (firstn (S n) ((c :: y) ++ [dquote])), (skipn (S n) (c :: y)), x'. split; [lia|]. split; [symmetry; apply firstn_skipn|]. split; [reflexivity|].
      split; [rewrite skipn_app in H; replace (S n - length (c :: y))%nat with 0%nat in H by lia; exact H|].
      rewrite Ew in Hi, Er |- *. apply (pc_unit _ _ r Sr Er); [|cbn [firstn]; eauto]. rewrite Forall_forall in Hi |- *. intros z Hz. apply Hi in Hz. lia.
Qed.

(** Nothing that is read back as more than itself starts with a byte below 128. *)
Lemma never_longer f : forall y p, p <> [] -> Forall (fun c => byte c < 128) p -> unquote f (y ++ [dquote]) <> Some (p ++ y, []).
Proof.
  induction f as [f IH] using lt_wf_ind. intros y p Np Lp H. destruct p as [|p1 p]; [congruence|]. inversion Lp as [|? ? L1 L2]; subst.
  apply unquote_step in H as [(_ & X)|(f' & w & out & y' & x' & Lf & -> & X & H & P)]; [discriminate X|]. cbn [app] in X.
  inversion P as [w0 r Sr Er Hw (c & w' & Ew)|e w0 out0 He Ho|b Hb Hs]; subst.
  - rewrite Ew in *. injection X as -> X. assert (w' = []) as ->.
    { destruct (utf8_enc_head r ltac:(unfold scalar in Sr; lia)) as [(z & _ & Ez)|(z & o & Hz & Ez)]; rewrite Ez in Ew; injection Ew as -> Ew; [symmetry; exact Ew|lia]. }
    cbn [app] in X. apply (IH f' Lf y' (p ++ [c])); [destruct p; discriminate| |rewrite <- app_assoc; cbn [app]; rewrite X; exact H].
    apply Forall_app. split; [exact L2|constructor; [exact L1|constructor]].
  - destruct Ho as [(z & Lz & ->)|(z & o & Hz & ->)]; cbn [app] in X; injection X as -> X; [|lia].
    apply (IH f' Lf y' (p ++ ch 92 :: e :: w0)); [destruct p; discriminate| |].
    + apply Forall_app. split; [exact L2|]. constructor; [vm_compute; reflexivity|exact He].
    + rewrite <- app_assoc. cbn [app]. cbn [app] in X. rewrite X. exact H.
  - unfold replacement in X. cbn [app] in X. injection X as -> _. revert L1. vm_compute. discriminate.
Qed.

Lemma read_back f : forall y, unquote f (y ++ [dquote]) = Some (y, []) -> utf8_text y /\ Forall (fun c => 32 <= byte c /\ byte c <> 34 /\ byte c <> 92) y.
Proof.
  induction f as [f IH] using lt_wf_ind. intros y H.
  apply unquote_step in H as [(-> & _)|(f' & w & out & y' & x' & Lf & -> & X & H & P)]; [split; [exists []; split; [constructor|reflexivity]|constructor]|].
  inversion P as [w0 r Sr Er Hw (c & w' & Ew)|e w0 out0 He Ho|b Hb Hs]; subst.
  - apply app_inv_head in X. subst x'. destruct (IH f' Lf y' H) as [(rs & Srs & ->) F]. split; [|apply Forall_app; split; assumption].
    exists (r :: rs). split; [constructor; assumption|reflexivity].
  - exfalso. cbn [app] in X. destruct Ho as [(z & Lz & ->)|(z & o & Hz & ->)]; cbn [app] in X; injection X as <- X; [|vm_compute in Hz; congruence].
    apply (never_longer f' y' (e :: w0)); [discriminate|exact He|cbn [app]; rewrite X; exact H].
  - exfalso. unfold replacement in X. cbn [app] in X. injection X as -> X. rewrite X in Hs. revert Hs. cbn [app utf8_size].
    change (byte (zb 239) <? 128) with false. change (byte (zb 239) <? 194) with false. change (byte (zb 239) <? 224) with false. change (byte (zb 239) <? 240) with true. cbv iota.
    discriminate.
Qed.

Lemma unquote_plain rs : Forall scalar rs -> forall f rest, Forall (fun c => 32 <= byte c /\ byte c <> 34 /\ byte c <> 92) (flat_map utf8_enc rs) -> (length (flat_map utf8_enc rs) < f)%nat ->
  unquote f (flat_map utf8_enc rs ++ dquote :: rest) = Some (flat_map utf8_enc rs, rest).
Proof.
  induction 1 as [|r rs Sr _ IH]; intros f rest F L; (destruct f as [|f]; [cbn in L; lia|]); [reflexivity|].
  cbn [flat_map] in *. rewrite app_length in L. apply Forall_app in F as [F1 F2]. pose proof (utf8_enc_nonempty r) as Ne. pose proof (utf8_size_enc r (flat_map utf8_enc rs ++ dquote :: rest) Sr) as Sz.
  rewrite <- app_assoc. destruct (utf8_enc r) as [|c w] eqn:Er; [congruence|]. remember (unquote f) as uq eqn:Q. cbn [app unquote]. rewrite <- Q. inversion F1 as [|? ? (A1 & A2 & A3) _]; subst.
  destruct (Z.eqb_spec (byte c) 34); [contradiction|]. destruct (Z.eqb_spec (byte c) 92); [contradiction|]. destruct (Z.ltb_spec (byte c) 32); [lia|].
  cbn [app] in Sz. rewrite Sz. cbn [length]. change (c :: w ++ flat_map utf8_enc rs ++ dquote :: rest) with ((c :: w) ++ flat_map utf8_enc rs ++ dquote :: rest).
  change (S (length w)) with (length (c :: w)). rewrite firstn_app, firstn_all, Nat.sub_diag, firstn_O, app_nil_r, skipn_app, skipn_all, Nat.sub_diag. cbn [skipn app].
  rewrite IH; [reflexivity|exact F2|cbn [length] in L; lia].
Qed.

Lemma unquote_rest f : forall y x r, unquote f (y ++ [dquote]) = Some (x, r) -> r = [] \/ exists z, r = z ++ [dquote].
Proof.
  assert (G : forall f s x r, unquote f s = Some (x, r) -> exists p, s = p ++ dquote :: r).
  { clear f. induction f as [|f IH]; intros s x r H; [discriminate|]. remember (unquote f) as uq eqn:Q. destruct s as [|c s]; [discriminate H|]. cbn [unquote] in H. rewrite <- Q in H.
    destruct (Z.eqb_spec (byte c) 34) as [C|_]; [injection H as _ <-; exists []; cbn [app]; f_equal; apply byte_inj; exact C|].
    assert (A : forall a t, add_to a (uq t) = Some (x, r) -> exists p, t = p ++ dquote :: r). { intros a t K. apply add_to_some in K as (b' & K & _). apply IH in K. exact K. }
    assert (A4 : forall t u t', u4 t = Some (u, t') -> exists w, t = w ++ t').
    { intros t u t'. destruct t as [|a [|b [|d [|e t]]]]; try discriminate. cbn [u4]. destruct (hex_val a), (hex_val b), (hex_val d), (hex_val e); try discriminate. intros [= _ <-]. exists [a; b; d; e]. reflexivity. }
    destruct (byte c =? 92).
    - destruct s as [|e s]; [discriminate H|]. destruct (simple_esc e) as [o|]; [apply A in H as (p & ->); exists (c :: e :: p); reflexivity|]. destruct (byte e =? 117); [|discriminate H].
      destruct (u4 s) as [[u r2]|] eqn:U; [|discriminate H]. apply A4 in U as (w & ->). destruct (surrogate u); [destruct (second_half u r2) as [[v r3]|] eqn:S2|].
      + apply A in H as (p & ->). unfold second_half in S2. destruct r2 as [|b [|e2 r2]]; try discriminate S2. destruct ((byte b =? 92) && (byte e2 =? 117)); [|discriminate S2].
        destruct (u4 r2) as [[v0 r']|] eqn:U2; [|discriminate S2]. apply A4 in U2 as (w2 & ->). destruct ((u <? 56320) && (56320 <=? v0) && (v0 <? 57344)); [|discriminate S2]. injection S2 as _ ->.
        exists (c :: e :: w ++ b :: e2 :: w2 ++ p). cbn [app]. rewrite <- !app_assoc. cbn [app]. rewrite <- !app_assoc. reflexivity.
      + apply A in H as (p & ->). exists (c :: e :: w ++ p). cbn [app]. rewrite <- app_assoc. reflexivity.
      + apply A in H as (p & ->). exists (c :: e :: w ++ p). cbn [app]. rewrite <- app_assoc. reflexivity.
    - destruct (byte c <? 32); [discriminate H|]. destruct (utf8_size (c :: s)) as [|n] eqn:N; [apply A in H as (p & ->); exists (c :: p); reflexivity|].
      apply A in H as (p & E). exists (firstn (S n) (c :: s) ++ p). rewrite <- app_assoc, <- E, firstn_skipn. reflexivity. }
  intros y x r H. apply G in H as (p & E). destruct r as [|a r] using rev_ind; [auto|]. right. clear IHr. exists r. change (p ++ dquote :: r ++ [a]) with (p ++ (dquote :: r) ++ [a]) in E. rewrite app_assoc in E.
  apply app_inj_tail in E as [_ <-]. reflexivity.
Qed.

Lemma quoted_json s : parse_json (dquote :: s ++ [dquote]) = Some (JStr s) <-> utf8_text s /\ Forall (fun c => 32 <= byte c /\ byte c <> 34 /\ byte c <> 92) s.
Proof.
  unfold parse_json. generalize (2 * length (dquote :: s ++ [dquote]))%nat as n. intros n. rewrite Nat.add_comm. cbn [Nat.add jval].
  change (skip_ws (dquote :: s ++ [dquote])) with (dquote :: s ++ [dquote]). cbv iota. change (byte dquote =? 34) with true. cbv iota. split.
  - intros H. destruct (unquote _ (s ++ [dquote])) as [[x r]|] eqn:U; [|discriminate H]. destruct (is_empty (skip_ws r)) eqn:Er; [|discriminate H]. injection H as ->.
    destruct (unquote_rest _ _ _ _ U) as [->|(z & ->)]; [apply read_back in U; exact U|]. exfalso. clear U. revert Er. induction z as [|c z IH]; [discriminate|].
    cbn [app skip_ws]. destruct (is_ws c); [exact IH|discriminate].
  - intros [(rs & Srs & ->) F]. rewrite (unquote_plain rs Srs _ [] F) by (rewrite app_length; lia). reflexivity.
Qed.
