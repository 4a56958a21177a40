From Verif Require Import GoBase GoBaseFacts IdModel IdSpec IdProofs FloatModel FloatSpec FloatProofs FloatGrammar.
From Coq Require Import ZifyBool ZifyNat.
Open Scope Z_scope.

Lemma all_ascii (P : ascii -> bool) : forallb P (map ascii_of_nat (seq 0 256)) = true -> forall c, P c = true.
Proof.
  intros H c. rewrite forallb_forall in H. apply H. rewrite <- (ascii_nat_embedding c). apply in_map, in_seq.
  pose proof (nat_ascii_bounded c). lia.
Qed.
Lemma under_eq c : Ascii.eqb c underscore = chr 95 c.
Proof. apply eqb_prop. apply (all_ascii (fun c => Bool.eqb (Ascii.eqb c underscore) (chr 95 c))). vm_compute. reflexivity. Qed.
(** Digits *)
Lemma mant_digit_bool hex c : mant_digit hex c <-> (Nat.leb 48 (nat_of_ascii c) && Nat.leb (nat_of_ascii c) 57) || (hex && existsb (Ascii.eqb c) (B "abcdefABCDEF")) = true.
Proof.
  unfold mant_digit, is_digit, hex_letter. rewrite orb_true_iff, !andb_true_iff, !Nat.leb_le, existsb_exists.
  split; intros [H|[H1 H2]]; auto.
  - right. split; [exact H1|]. exists c. split; [exact H2|apply Ascii.eqb_refl].
  - right. split; [exact H1|]. destruct H2 as (d & I & E). apply Ascii.eqb_eq in E. subst d. exact I.
Qed.
Lemma flt_digit_spec hex c : (mant_digit hex c <-> flt_digit hex c = Some (digit_value c)) /\ (~ mant_digit hex c <-> flt_digit hex c = None).
Proof.
  assert (H : forall c, (if (Nat.leb 48 (nat_of_ascii c) && Nat.leb (nat_of_ascii c) 57) || (hex && existsb (Ascii.eqb c) (B "abcdefABCDEF"))
    then match flt_digit hex c with Some d => d =? digit_value c | None => false end
    else match flt_digit hex c with Some d => false | None => true end) = true).
  { intros d. destruct hex; apply (all_ascii (fun c => if (Nat.leb 48 (nat_of_ascii c) && Nat.leb (nat_of_ascii c) 57) || (_ && existsb (Ascii.eqb c) (B "abcdefABCDEF"))
    then match flt_digit _ c with Some d => d =? digit_value c | None => false end
    else match flt_digit _ c with Some d => false | None => true end)); vm_compute; reflexivity. }
  specialize (H c). pose proof (mant_digit_bool hex c) as M. destruct (_ || _).
  - destruct (flt_digit hex c) as [d|]; [|discriminate H]. apply Z.eqb_eq in H. subst d. split; split; intros X; try reflexivity; try discriminate X; try (apply M; reflexivity). destruct X. apply M. reflexivity.
  - destruct (flt_digit hex c) as [d|]; [discriminate H|]. split; split; intros X; try reflexivity; try discriminate X; try (apply M in X; discriminate X). intros Y. apply M in Y. discriminate Y.
Qed.
Lemma fd_some hex c d : flt_digit hex c = Some d -> mant_digit hex c /\ d = digit_value c.
Proof.
  intros H. destruct (flt_digit_spec hex c) as [[A _] [Bq _]]. assert (M : mant_digit hex c).
  { apply mant_digit_bool. destruct (_ || _) eqn:E; [reflexivity|]. rewrite Bq in H; [discriminate H|]. intros X. apply mant_digit_bool in X. congruence. }
  split; [exact M|]. rewrite (A M) in H. congruence.
Qed.
Lemma mant_not hex c : mant_digit hex c -> chr 95 c = false /\ chr 46 c = false /\ chr (if hex then 112 else 101) (lower_ascii c) = false.
Proof.
  rewrite mant_digit_bool. intros H.
  assert (G : forall c, implb ((Nat.leb 48 (nat_of_ascii c) && Nat.leb (nat_of_ascii c) 57) || (hex && existsb (Ascii.eqb c) (B "abcdefABCDEF")))
    (negb (chr 95 c) && negb (chr 46 c) && negb (chr (if hex then 112 else 101) (lower_ascii c))) = true).
  { intros d. destruct hex; apply (all_ascii (fun c => implb ((Nat.leb 48 (nat_of_ascii c) && Nat.leb (nat_of_ascii c) 57) || (_ && existsb (Ascii.eqb c) (B "abcdefABCDEF")))
      (negb (chr 95 c) && negb (chr 46 c) && negb (chr _ (lower_ascii c))))); vm_compute; reflexivity. }
  specialize (G c). rewrite H in G. cbn [implb] in G. apply andb_true_iff in G as [G G3]. apply andb_true_iff in G as [G1 G2].
  rewrite !negb_true_iff in *. auto.
Qed.
Lemma digit_nonneg hex c : mant_digit hex c -> 0 <= digit_value c.
Proof.
  intros [[A Bd]|[_ H]]; [unfold digit_value; destruct (_ <? 58) eqn:E; lia|]. unfold hex_letter in H. cbn in H.
  repeat destruct H as [<-|H]; try (vm_compute; discriminate). destruct H.
Qed.
Definition mv (hex : bool) (a : Z) (s : bytes) : Z := fold_left (fun a c => (if hex then 16 else 10) * a + digit_value c) s a.
Lemma mv_app hex a s t : mv hex a (s ++ t) = mv hex (mv hex a s) t. Proof. apply fold_left_app. Qed.
Lemma mv_nonneg hex s : forall a, 0 <= a -> Forall (mant_digit hex) s -> 0 <= mv hex a s.
Proof.
  induction s as [|c s IH]; intros a A D; [exact A|]. inversion D as [|? ? Dc Ds]; subst.
  change (mv hex a (c :: s)) with (mv hex ((if hex then 16 else 10) * a + digit_value c) s). apply IH; [|exact Ds].
  pose proof (digit_nonneg hex c Dc). destruct hex; lia.
Qed.
(** The mantissa, forwards *)
Lemma rm_digits' hex ds : Forall (mant_digit hex) ds -> forall dot saw und m f r,
  read_mant hex dot saw und m f (ds ++ r) = read_mant hex dot (saw || negb (is_empty ds)) und (mv hex m ds) (if dot then f + Z.of_nat (length ds) else f) r.
Proof.
  induction 1 as [|c ds D Ds IH]; intros dot saw und m f r.
  - cbn [app is_empty negb length]. unfold mv. cbn [fold_left]. rewrite orb_false_r. destruct dot; [|reflexivity]. f_equal. lia.
  - cbn [app read_mant]. destruct (mant_not hex c D) as (-> & -> & _).
    rewrite (proj1 (proj1 (flt_digit_spec hex c)) D). rewrite IH. cbn [is_empty negb length]. rewrite orb_true_r. f_equal.
    + change (mv hex m (c :: ds)) with (mv hex ((if hex then 16 else 10) * m + digit_value c) ds). f_equal. destruct hex; lia.
    + destruct dot; [rewrite Nat2Z.inj_succ; lia|reflexivity].
Qed.
Lemma read_plain hex s ip fp x : plain hex s ip fp x -> Z.abs x < 100000 ->
  read_float hex s = Some (mant_val hex (ip ++ fp), x - (if hex then 4 else 1) * Z.of_nat (length fp)).
Proof.
  intros (fr & ex & -> & Hi & Hf & Ne & He) Hx. unfold read_float.
  assert (RM : read_mant hex false false false 0 0 (ip ++ fr ++ ex) = (mant_val hex (ip ++ fp), Z.of_nat (length fp), true, false, ex)).
  { assert (Stop : forall dot saw m f, read_mant hex dot saw false m f ex = (m, f, saw, false, ex)).
    { intros dot saw m f. inversion He; subst; [reflexivity|]. destruct hex; cbn in H; destruct H as [<-|[<-|[]]]; reflexivity. }
    rewrite rm_digits' by exact Hi. inversion Hf; subst.
    - rewrite app_nil_r in *. cbn [app length]. rewrite Stop. destruct ip as [|c ip]; [congruence|]. reflexivity.
    - cbn [app]. change (B "." ++ fp) with (ascii_of_nat 46 :: fp). cbn [app].
      transitivity (read_mant hex true (false || negb (is_empty ip)) false (mv hex 0 ip) 0 (fp ++ ex)); [reflexivity|]. rewrite rm_digits' by exact H.
      rewrite Stop. rewrite <- mv_app. rewrite Z.add_0_l. change (mv hex 0 (ip ++ fp)) with (mant_val hex (ip ++ fp)). repeat f_equal.
      destruct ip; [|reflexivity]. cbn [app] in Ne. destruct fp; [congruence|reflexivity]. }
  rewrite RM. cbn [negb]. cbv zeta. inversion He; subst.
  - cbn [andb]. f_equal. f_equal. lia.
  - assert (chr (if hex then 112 else 101) (lower_ascii c) = true) as -> by (destruct hex; cbn in H; destruct H as [<-|[<-|[]]]; reflexivity).
    destruct H1 as [D1 D2]. assert (Hd : forall c0 r', ds = c0 :: r' -> nat_of_ascii c0 <> 43%nat /\ nat_of_ascii c0 <> 45%nat).
    { intros c0 r' ->. inversion D2 as [|? ? [A Bd] _]; subst. lia. }
    rewrite (read_sign_text t neg ds H0 Hd). destruct ds as [|d ds]; [congruence|]. inversion D2 as [|? ? Dd Dds]; subst. rewrite (digit_of d Dd).
    assert (V : dv 0 (d :: ds) < 100000). { change (dv 0 (d :: ds)) with (dec_val (d :: ds)). unfold signed in Hx. destruct neg; lia. }
    rewrite (re_digits (d :: ds) D2 false 0 ltac:(lia) V). cbn [is_empty andb]. change (dv 0 (d :: ds)) with (dec_val (d :: ds)). f_equal. f_equal. unfold signed. destruct hex, neg; lia.
Qed.
(** and backwards, without underscores *)
Lemma rm_inv' hex s : ~ In under s -> forall dot saw m f m' f' saw' und' r, read_mant hex dot saw false m f s = (m', f', saw', und', r) ->
  und' = false /\ exists ip fr fp, s = ip ++ fr ++ r /\ Forall (mant_digit hex) ip /\ frac_part hex fr fp /\ (dot = true -> fr = []) /\ (saw' = true -> saw = true \/ ip ++ fp <> []).
Proof.
  induction s as [|c s IH]; intros NU dot saw m f m' f' saw' und' r H.
  - injection H as <- <- <- <- <-. split; [reflexivity|]. exists [], [], []. repeat split; try constructor; auto.
  - cbn [read_mant] in H. destruct (chr 95 c) eqn:C95; [exfalso; apply NU; left; apply chr_eq; [lia|exact C95]|].
    assert (NU' : ~ In under s) by (intros X; apply NU; right; exact X).
    destruct (chr 46 c) eqn:C46.
    + destruct dot; [injection H as <- <- <- <- <-; split; [reflexivity|]; exists [], [], []; repeat split; try constructor; auto|].
      apply chr_eq in C46; [|lia]. subst c. destruct (IH NU' _ _ _ _ _ _ _ _ _ H) as (-> & ip & fr & fp & -> & Hi & Hf & Hd & Hs).
      split; [reflexivity|]. rewrite (Hd eq_refl) in *. exists [], (B "." ++ ip), ip. assert (fp = []) as E by (inversion Hf; reflexivity). rewrite E, app_nil_r in Hs.
      repeat split; [constructor|constructor; exact Hi|discriminate|exact Hs].
    + destruct (flt_digit hex c) eqn:FD; [|injection H as <- <- <- <- <-; split; [reflexivity|]; exists [], [], []; repeat split; try constructor; auto].
      destruct (IH NU' _ _ _ _ _ _ _ _ _ H) as (-> & ip & fr & fp & -> & Hi & Hf & Hd & _). split; [reflexivity|]. exists (c :: ip), fr, fp.
      repeat split; [constructor; [exact (proj1 (fd_some hex c z FD))|exact Hi]|exact Hf|exact Hd|]. intros _. right. discriminate.
Qed.
Lemma lower_p c : chr 112 (lower_ascii c) = true -> In c (B "pP").
Proof.
  intros H.
  assert (G : forall c, implb (chr 112 (lower_ascii c)) (existsb (Ascii.eqb c) (B "pP")) = true) by (apply (all_ascii (fun c => implb (chr 112 (lower_ascii c)) (existsb (Ascii.eqb c) (B "pP")))); vm_compute; reflexivity).
  specialize (G c). rewrite H in G. cbn [implb] in G. apply existsb_exists in G as (d & I & E). apply Ascii.eqb_eq in E. subst d. exact I.
Qed.
Lemma read_plain_inv hex s v : ~ In under s -> read_float hex s = Some v -> exists ip fp x, plain hex s ip fp x.
Proof.
  intros NT RF. unfold read_float in RF. destruct (read_mant hex false false false 0 0 s) as [[[[m' f'] saw'] und'] r] eqn:RM.
  destruct (rm_inv' hex s NT _ _ _ _ _ _ _ _ _ RM) as (-> & ip & fr & fp & -> & Hi & Hf & _ & Hn). destruct saw'; [|discriminate RF]. cbn [negb] in RF. cbv zeta in RF.
  destruct (Hn eq_refl) as [X|Ne]; [discriminate X|]. clear Hn RM. destruct r as [|c r].
  { destruct hex; [discriminate RF|]. exists ip, fp, 0. exists fr, []. repeat split; try assumption. constructor. }
  destruct (chr (if hex then 112 else 101) (lower_ascii c)) eqn:EC; [|discriminate RF]. destruct (read_sign r) as [en r2] eqn:RS. apply read_sign_inv in RS as (et & -> & Het).
  destruct r2 as [|d r2]; [discriminate RF|]. destruct (dec_digit d) as [dd|] eqn:DD; [|discriminate RF].
  destruct (read_exp false 0 (d :: r2)) as [[e' und'] r3] eqn:RX.
  assert (NX : ~ In under (d :: r2)). { intros X. apply NT, in_or_app. right. apply in_or_app. right. right. apply in_or_app. right. exact X. }
  destruct (rx_inv _ NX _ _ _ _ _ RX) as (-> & ds & Eds & Hds). destruct (is_empty r3) eqn:E3; [|discriminate RF]. destruct r3; [|discriminate E3]. rewrite app_nil_r in Eds.
  exists ip, fp, (signed en (dec_val ds)). exists fr, (c :: et ++ ds). rewrite Eds. repeat split; try assumption.
  constructor; [destruct hex; [apply lower_p, EC|apply lower_e, EC]|exact Het|]. split; [rewrite <- Eds; discriminate|exact Hds].
Qed.

(** ** Underscores *)
Notation bare := without_underscores.
Definition has_under (s : bytes) : bool := existsb (chr 95) s.
Lemma bare_cons c s : bare (c :: s) = if chr 95 c then bare s else c :: bare s.
Proof. unfold bare. cbn [filter]. rewrite under_eq. destruct (chr 95 c); reflexivity. Qed.
Lemma bare_no s : ~ In under (bare s).
Proof. unfold bare. intros H. apply filter_In in H as [_ H]. rewrite under_eq in H. discriminate H. Qed.
Lemma bare_id s : has_under s = false -> bare s = s.
Proof.
  induction s as [|c s IH]; intros H; [reflexivity|]. unfold has_under in H. cbn [existsb] in H. apply orb_false_iff in H as [H1 H2].
  rewrite bare_cons, H1, IH by exact H2. reflexivity.
Qed.
Lemma has_under_app s t : has_under (s ++ t) = has_under s || has_under t. Proof. apply existsb_app. Qed.
Lemma under_digit hex c : chr 95 c = true -> flt_digit hex c = None.
Proof. intros H. apply chr_eq in H; [|lia]. subst c. destruct hex; reflexivity. Qed.
Lemma rm_bare hex s : forall dot saw und m f m' f' saw' und' r, read_mant hex dot saw und m f s = (m', f', saw', und', r) ->
  read_mant hex dot saw false m f (bare s) = (m', f', saw', false, bare r) /\ (exists p, s = p ++ r /\ und' = und || has_under p) /\ (forall c r', r = c :: r' -> chr 95 c = false).
Proof.
  induction s as [|c s IH]; intros dot saw und m f m' f' saw' und' r H.
  - injection H as <- <- <- <- <-. split; [reflexivity|]. split; [|discriminate]. exists []. split; [reflexivity|]. rewrite orb_false_r. reflexivity.
  - rewrite bare_cons. cbn [read_mant] in H. destruct (chr 95 c) eqn:C95.
    + destruct (IH _ _ _ _ _ _ _ _ _ _ H) as (A & (p & -> & E) & N). split; [exact A|]. split; [|exact N]. exists (c :: p). split; [reflexivity|]. rewrite E. unfold has_under. cbn [existsb]. rewrite C95. destruct und; reflexivity.
    + cbn [read_mant]. rewrite C95.
      assert (St : (m, f, saw, und, c :: s) = (m', f', saw', und', r) -> (m, f, saw, false, c :: bare s) = (m', f', saw', false, bare r) /\ (exists p, c :: s = p ++ r /\ und' = und || has_under p) /\ (forall c r', r = c :: r' -> chr 95 c = false)).
      { intros X. injection X as <- <- <- <- <-. rewrite bare_cons, C95. split; [reflexivity|]. split; [exists []; split; [reflexivity|rewrite orb_false_r; reflexivity]|]. intros ? ? E. injection E as <- _. exact C95. }
      assert (Go : forall dot1 saw1 m1 f1, read_mant hex dot1 saw1 und m1 f1 s = (m', f', saw', und', r) ->
        read_mant hex dot1 saw1 false m1 f1 (bare s) = (m', f', saw', false, bare r) /\ (exists p, c :: s = p ++ r /\ und' = und || has_under p) /\ (forall c r', r = c :: r' -> chr 95 c = false)).
      { intros dot1 saw1 m1 f1 X. destruct (IH _ _ _ _ _ _ _ _ _ _ X) as (A & (p & -> & E) & N). split; [exact A|]. split; [|exact N]. exists (c :: p). split; [reflexivity|]. rewrite E. unfold has_under. cbn [existsb]. rewrite C95. reflexivity. }
      destruct (chr 46 c); [destruct dot; [exact (St H)|exact (Go _ _ _ _ H)]|]. destruct (flt_digit hex c); [exact (Go _ _ _ _ H)|exact (St H)].
Qed.
Lemma rx_bare s : forall und e e' und' r, read_exp und e s = (e', und', r) ->
  read_exp false e (bare s) = (e', false, bare r) /\ (exists p, s = p ++ r /\ und' = und || has_under p) /\ (forall c r', r = c :: r' -> chr 95 c = false).
Proof.
  induction s as [|c s IH]; intros und e e' und' r H.
  - injection H as <- <- <-. split; [reflexivity|]. split; [|discriminate]. exists []. split; [reflexivity|]. rewrite orb_false_r. reflexivity.
  - rewrite bare_cons. cbn [read_exp] in H. destruct (chr 95 c) eqn:C95.
    + destruct (IH _ _ _ _ _ H) as (A & (p & -> & E) & N). split; [exact A|]. split; [|exact N]. exists (c :: p). split; [reflexivity|]. rewrite E. unfold has_under. cbn [existsb]. rewrite C95. destruct und; reflexivity.
    + cbn [read_exp]. rewrite C95. destruct (dec_digit c).
      * destruct (IH _ _ _ _ _ H) as (A & (p & -> & E) & N). split; [exact A|]. split; [|exact N]. exists (c :: p). split; [reflexivity|]. rewrite E. unfold has_under. cbn [existsb]. rewrite C95. reflexivity.
      * injection H as <- <- <-. rewrite bare_cons, C95. split; [reflexivity|]. split; [exists []; split; [reflexivity|rewrite orb_false_r; reflexivity]|]. intros ? ? E. injection E as <- _. exact C95.
Qed.
(** underscoreOK *)
Definition sep_from (hex : bool) (p : uprev) (s : bytes) : Prop :=
  (forall a b, s = a ++ under :: b -> ((p = UDigit /\ a = []) \/ exists a' c, a = a' ++ [c] /\ mant_digit hex c) /\ exists c b', b = c :: b' /\ mant_digit hex c) /\
  (p = UUnder -> exists c b', s = c :: b' /\ mant_digit hex c).
Lemma under_not hex : ~ mant_digit hex under.
Proof. intros H. apply mant_not in H. destruct H as [H _]. discriminate H. Qed.
Lemma under_ok_spec hex s : forall p, under_ok hex p s = true <-> sep_from hex p s.
Proof.
  induction s as [|c s IH]; intros p.
  - cbn [under_ok]. unfold sep_from. split.
    + intros H. split; [intros a b X; destruct a; discriminate X|]. intros ->. discriminate H.
    + intros [_ H]. destruct p; try reflexivity. destruct (H eq_refl) as (c & b & X & _). discriminate X.
  - assert (Tail : forall q, (forall a b, c :: s = a ++ under :: b -> ((p = UDigit /\ a = []) \/ exists a' d, a = a' ++ [d] /\ mant_digit hex d) /\ exists d b', b = d :: b' /\ mant_digit hex d) ->
      (q = UDigit <-> mant_digit hex c) -> (forall a b, s = a ++ under :: b -> ((q = UDigit /\ a = []) \/ exists a' d, a = a' ++ [d] /\ mant_digit hex d) /\ exists d b', b = d :: b' /\ mant_digit hex d)).
    { intros q H Q a b E. destruct (H (c :: a) b) as [X Y]; [rewrite E; reflexivity|]. split; [|exact Y]. destruct X as [[_ X]|(a' & d & X & D)]; [discriminate X|].
      destruct a' as [|c' a']; [injection X as <- ->; left; split; [apply Q, D|reflexivity]|]. injection X as <- ->. right. exists a', d. auto. }
    assert (Back : forall q, (forall a b, s = a ++ under :: b -> ((q = UDigit /\ a = []) \/ exists a' d, a = a' ++ [d] /\ mant_digit hex d) /\ exists d b', b = d :: b' /\ mant_digit hex d) -> (q = UDigit -> mant_digit hex c) ->
      (c = under -> p = UDigit /\ exists d b', s = d :: b' /\ mant_digit hex d) ->
      forall a b, c :: s = a ++ under :: b -> ((p = UDigit /\ a = []) \/ exists a' d, a = a' ++ [d] /\ mant_digit hex d) /\ exists d b', b = d :: b' /\ mant_digit hex d).
    { intros q H Q C a b E. destruct a as [|c' a]; injection E as E1 E2.
      - destruct (C E1) as [P D]. rewrite <- E2. split; [left; auto|exact D].
      - destruct (H a b E2) as [X Y]. split; [|exact Y]. right. subst c'. destruct X as [[X ->]|(a' & d & -> & D)]; [exists [], c; split; [reflexivity|exact (Q X)]|exists (c :: a'), d; auto]. }
    cbn [under_ok]. destruct (flt_digit hex c) as [d|] eqn:FD.
    + apply fd_some in FD as [M _]. assert (NU : c <> under) by (intros ->; exact (under_not hex M)). rewrite IH. unfold sep_from. split; intros [H1 H2].
      * split; [|intros _; eauto]. apply (Back UDigit H1); [auto|contradiction].
      * split; [|discriminate]. apply (Tail UDigit H1). split; auto.
    + assert (NM : ~ mant_digit hex c) by (apply flt_digit_spec, FD). destruct (chr 95 c) eqn:C95.
      * apply chr_eq in C95; [|lia]. subst c. split.
        { destruct p; try discriminate. rewrite IH. intros [H1 H2]. split; [|discriminate]. apply (Back UUnder H1); [discriminate|]. auto. }
        { intros [H1 H2]. destruct (H1 [] s eq_refl) as [[[-> _]|(a' & d & X & _)] Y]; [|destruct a'; discriminate X]. apply IH. split; [|intros _; exact Y]. apply (Tail UUnder H1). split; [discriminate|contradiction]. }
      * assert (NU : c <> under) by (intros ->; discriminate C95). split.
        { destruct p; try discriminate; rewrite IH; intros [H1 H2]; (split; [|discriminate]); apply (Back UOther H1); try discriminate; contradiction. }
        { intros [H1 H2]. destruct p; try (apply IH; split; [|discriminate]; apply (Tail UOther H1); split; [discriminate|contradiction]).
          destruct (H2 eq_refl) as (d & b' & X & D). injection X as <- _. contradiction. }
Qed.
Lemma separated_ok hex s : under_ok hex (if hex then UDigit else UOther) s = true <-> separated hex s.
Proof.
  rewrite under_ok_spec. unfold sep_from, separated, underscore. split.
  - intros [H _] a b E. destruct (H a b E) as [[[P Q]|X] Y]; (split; [|exact Y]); [left|right; exact X]. destruct hex; [auto|discriminate P].
  - intros H. split; [|destruct hex; discriminate]. intros a b E. destruct (H a b E) as [[[P Q]|X] Y]; (split; [|exact Y]); [left|right; exact X]. subst hex. auto.
Qed.
(** A separated text is read as the text without underscores. *)
Lemma read_bare hex s : separated hex s -> read_float hex s = read_float hex (bare s).
Proof.
  intros Sp. unfold read_float. destruct (read_mant hex false false false 0 0 s) as [[[[m f] saw] und] r] eqn:RM.
  destruct (rm_bare hex s _ _ _ _ _ _ _ _ _ _ RM) as (-> & (p & Es & Eu) & Nr). destruct saw; cbn [negb]; [|reflexivity]. cbv zeta.
  assert (OK : under_ok hex (if hex then UDigit else UOther) s = true) by (apply separated_ok, Sp). rewrite OK. cbn [negb]. rewrite andb_false_r. cbn [andb].
  destruct r as [|c r1]; [reflexivity|]. rewrite bare_cons, (Nr c r1 eq_refl). destruct (chr (if hex then 112 else 101) (lower_ascii c)) eqn:EC; [|reflexivity].
  assert (NMc : ~ mant_digit hex c) by (intros M; apply mant_not in M; destruct M as (_ & _ & M); congruence).
  assert (Pr : forall q, s = q ++ c :: r1 -> forall t u, r1 = t ++ under :: u -> (t = [] \/ exists d, t = [d] /\ ~ mant_digit hex d) -> False).
  { intros q E t u E1 T. destruct (Sp (q ++ c :: t) u) as [X _]; [rewrite E, E1, <- app_assoc; reflexivity|].
    destruct X as [[_ X]|(a' & d & X & D)]; [destruct q; discriminate X|]. destruct T as [->|(d' & -> & D')].
    - apply app_inj_tail in X as [_ ->]. contradiction.
    - change (q ++ [c; d']) with (q ++ [c] ++ [d']) in X. rewrite app_assoc in X. apply app_inj_tail in X as [_ ->]. contradiction. }
  specialize (Pr p Es). assert (Pl : forall n, In n [43; 45]%nat -> ~ mant_digit hex (ascii_of_nat n)). { intros n [<-|[<-|[]]] M; apply mant_digit_bool in M; destruct hex; discriminate M. }
  assert (RSb : forall neg r2, read_sign r1 = (neg, r2) -> read_sign (bare r1) = (neg, bare r2) /\ forall d u, r2 = d :: u -> chr 95 d = false).
  { intros neg r2. destruct r1 as [|d r1]; [intros X; injection X as <- <-; split; [reflexivity|discriminate]|]. rewrite bare_cons.
    destruct (chr 95 d) eqn:D95; [exfalso; apply chr_eq in D95; [|lia]; subst d; exact (Pr [] r1 eq_refl (or_introl eq_refl))|].
    cbn [read_sign]. destruct (chr 43 d) eqn:P; [|destruct (chr 45 d) eqn:Q].
    - intros X; injection X as <- <-. split; [reflexivity|]. intros e u ->. destruct (chr 95 e) eqn:E95; [|reflexivity]. exfalso. apply chr_eq in E95; [|lia]. apply chr_eq in P; [|lia]. subst d e. apply (Pr [ascii_of_nat 43] u eq_refl). right. eexists. split; [reflexivity|]. apply Pl. cbn; auto.
    - intros X; injection X as <- <-. split; [reflexivity|]. intros e u ->. destruct (chr 95 e) eqn:E95; [|reflexivity]. exfalso. apply chr_eq in E95; [|lia]. apply chr_eq in Q; [|lia]. subst d e. apply (Pr [ascii_of_nat 45] u eq_refl). right. eexists. split; [reflexivity|]. apply Pl. cbn; auto.
    - intros X; injection X as <- <-. rewrite bare_cons, D95. split; [reflexivity|]. intros e u E. injection E as <- _. exact D95. }
  destruct (read_sign r1) as [neg r2] eqn:RS. destruct (RSb neg r2 eq_refl) as [-> N2]. destruct r2 as [|d r2]; [reflexivity|]. rewrite bare_cons, (N2 d r2 eq_refl).
  destruct (dec_digit d) eqn:DD; [|reflexivity]. destruct (read_exp und 0 (d :: r2)) as [[e und'] r3] eqn:RX.
  destruct (rx_bare (d :: r2) _ _ _ _ _ RX) as (RXb & _ & N3). rewrite bare_cons, (N2 d r2 eq_refl) in RXb. rewrite RXb.
  destruct r3 as [|w r3]; [rewrite andb_false_r; reflexivity|]. rewrite bare_cons, (N3 w r3 eq_refl). reflexivity.
Qed.
(** Another text with underscores is refused. *)
Lemma read_separated hex s v : read_float hex s = Some v -> separated hex s.
Proof.
  intros RF. destruct (has_under s) eqn:HU.
  2:{ intros a b E. exfalso. rewrite E, has_under_app in HU. apply orb_false_iff in HU as [_ HU]. discriminate HU. }
  apply separated_ok. destruct (under_ok hex (if hex then UDigit else UOther) s) eqn:OK; [reflexivity|]. exfalso. unfold read_float in RF.
  destruct (read_mant hex false false false 0 0 s) as [[[[m f] saw] und] r] eqn:RM.
  destruct (rm_bare hex s _ _ _ _ _ _ _ _ _ _ RM) as (_ & (p & Es & Eu) & _). cbn [orb] in Eu. destruct saw; [|discriminate RF]. cbn [negb] in RF. cbv zeta in RF. rewrite OK in RF. cbn [negb] in RF. rewrite andb_true_r in RF.
  destruct r as [|c r1]; [destruct hex; [discriminate RF|]; rewrite app_nil_r in Es; subst p; rewrite Eu, HU in RF; discriminate RF|].
  destruct (chr _ (lower_ascii c)) eqn:EC; [|discriminate RF].
  assert (C95 : has_under [c] = false). { destruct (has_under [c]) eqn:X; [|reflexivity]. unfold has_under in X. cbn [existsb] in X. rewrite orb_false_r in X. apply chr_eq in X; [|lia]. subst c. destruct hex; discriminate EC. }
  destruct (read_sign r1) as [neg r2] eqn:RS. apply read_sign_inv in RS as (t & -> & Ht). destruct r2 as [|d r2]; [discriminate RF|]. destruct (dec_digit d); [|discriminate RF].
  destruct (read_exp und 0 (d :: r2)) as [[e und'] r3] eqn:RX. destruct (rx_bare (d :: r2) _ _ _ _ _ RX) as (_ & (q & Eq & Eu') & _). destruct r3; [|discriminate RF]. cbn [is_empty] in RF. rewrite app_nil_r in Eq.
  assert (T : has_under t = false) by (inversion Ht; reflexivity).
  rewrite andb_true_r in RF. rewrite Es, has_under_app in HU. change (c :: t ++ d :: r2) with ([c] ++ t ++ d :: r2) in HU. rewrite !has_under_app, C95, T, Eq in HU. cbn [orb] in HU. rewrite Eu', Eu, HU in RF. discriminate RF.
Qed.
Theorem read_float_grammar hex s v : read_float hex s = Some v -> separated hex s /\ exists ip fp x, plain hex (bare s) ip fp x.
Proof. intros H. pose proof (read_separated hex s v H) as Sp. split; [exact Sp|]. rewrite (read_bare hex s Sp) in H. exact (read_plain_inv hex (bare s) v (bare_no s) H). Qed.

(** ** Very large exponents: ParseFloat stops counting at 10000 *)
Lemma re_cap ds : Forall is_digit ds -> forall und e, 0 <= e -> exists e', read_exp und e ds = (e', und, []) /\ (e' = dv e ds \/ (10000 <= e' <= dv e ds)).
Proof.
  induction 1 as [|c ds D Ds IH]; intros und e He; [exists e; split; [reflexivity|left; reflexivity]|]. cbn [read_exp]. pose proof D as [D1 D2].
  assert (chr 95 c = false) as -> by (apply chr_false; lia). rewrite (digit_of c D).
  change (dv e (c :: ds)) with (dv (10 * e + (Z.of_nat (nat_of_ascii c) - 48)) ds).
  destruct (e <? 10000) eqn:E.
  - destruct (IH und (e * 10 + (Z.of_nat (nat_of_ascii c) - 48)) ltac:(lia)) as (e' & X & Y). exists e'. split; [exact X|].
    replace (10 * e + (Z.of_nat (nat_of_ascii c) - 48)) with (e * 10 + (Z.of_nat (nat_of_ascii c) - 48)) by lia. exact Y.
  - apply Z.ltb_ge in E. destruct (IH und e He) as (e' & X & Y). exists e'. split; [exact X|].
    assert (M : dv e ds <= dv (10 * e + (Z.of_nat (nat_of_ascii c) - 48)) ds). { rewrite !(dv_shift ds). pose proof (Z.pow_nonneg 10 (Z.of_nat (length ds))). nia. }
    assert (L : e <= dv e ds). { rewrite dv_shift. pose proof (Z.pow_pos_nonneg 10 (Z.of_nat (length ds))). pose proof (dv_nonneg ds 0 ltac:(lia) Ds) as [Q _]. change (dv 0 ds) with (dec_val ds) in Q. nia. }
    right. lia.
Qed.
Lemma read_plain_cap hex s ip fp x : plain hex s ip fp x -> exists x',
  read_float hex s = Some (mant_val hex (ip ++ fp), x' - (if hex then 4 else 1) * Z.of_nat (length fp)) /\ (x' = x \/ (10000 <= x' <= x) \/ (x <= x' <= -10000)).
Proof.
  intros P. pose proof P as (fr & ex & Es & Hi & Hf & Ne & He). subst s. unfold read_float.
  assert (RM : read_mant hex false false false 0 0 (ip ++ fr ++ ex) = (mant_val hex (ip ++ fp), Z.of_nat (length fp), true, false, ex)).
  { assert (Stop : forall dot saw m f, read_mant hex dot saw false m f ex = (m, f, saw, false, ex)).
    { intros dot saw m f. inversion He; subst; [reflexivity|]. destruct hex; cbn in H; destruct H as [<-|[<-|[]]]; reflexivity. }
    rewrite rm_digits' by exact Hi. inversion Hf; subst.
    - rewrite app_nil_r in *. cbn [app length]. rewrite Stop. destruct ip as [|c ip]; [congruence|]. reflexivity.
    - cbn [app]. change (B "." ++ fp) with (ascii_of_nat 46 :: fp). cbn [app].
      transitivity (read_mant hex true (false || negb (is_empty ip)) false (mv hex 0 ip) 0 (fp ++ ex)); [reflexivity|]. rewrite rm_digits' by exact H.
      rewrite Stop. rewrite <- mv_app. rewrite Z.add_0_l. change (mv hex 0 (ip ++ fp)) with (mant_val hex (ip ++ fp)). repeat f_equal.
      destruct ip; [|reflexivity]. cbn [app] in Ne. destruct fp; [congruence|reflexivity]. }
  rewrite RM. cbn [negb]. cbv zeta. inversion He; subst.
  - cbn [andb]. exists 0. split; [|left; reflexivity]. f_equal. f_equal. lia.
  - assert (chr (if hex then 112 else 101) (lower_ascii c) = true) as -> by (destruct hex; cbn in H; destruct H as [<-|[<-|[]]]; reflexivity).
    destruct H1 as [D1 D2]. assert (Hd : forall c0 r', ds = c0 :: r' -> nat_of_ascii c0 <> 43%nat /\ nat_of_ascii c0 <> 45%nat).
    { intros c0 r' ->. inversion D2 as [|? ? [A Bd] _]; subst. lia. }
    rewrite (read_sign_text t neg ds H0 Hd). destruct ds as [|d ds]; [congruence|]. inversion D2 as [|? ? Dd Dds]; subst. rewrite (digit_of d Dd).
    destruct (re_cap (d :: ds) D2 false 0 ltac:(lia)) as (e' & -> & V). change (dv 0 (d :: ds)) with (dec_val (d :: ds)) in V.
    cbn [is_empty andb]. exists (signed neg e'). split; [f_equal; f_equal; unfold signed; destruct hex, neg; lia|]. unfold signed. destruct neg; lia.
Qed.
Lemma digit_lt hex c : mant_digit hex c -> digit_value c < (if hex then 16 else 10).
Proof.
  intros [[A Bd]|[-> H]]; [unfold digit_value; destruct (_ <? 58) eqn:E; destruct hex; lia|]. unfold hex_letter in H. cbn in H.
  repeat destruct H as [<-|H]; try (vm_compute; reflexivity). destruct H.
Qed.
Lemma mv_bound hex s : forall a k, 0 <= k -> 0 <= a < 2 ^ k -> Forall (mant_digit hex) s -> mv hex a s < 2 ^ (k + 4 * Z.of_nat (length s)).
Proof.
  induction s as [|c s IH]; intros a k K A D; [cbn [length]; rewrite Z.mul_0_r, Z.add_0_r; apply A|]. inversion D as [|? ? Dc Ds]; subst.
  change (mv hex a (c :: s)) with (mv hex ((if hex then 16 else 10) * a + digit_value c) s).
  replace (k + 4 * Z.of_nat (length (c :: s))) with ((k + 4) + 4 * Z.of_nat (length s)) by (cbn [length]; lia).
  apply IH; [lia| |exact Ds]. rewrite Z.pow_add_r by lia. change (2 ^ 4) with 16. pose proof (digit_nonneg hex c Dc). pose proof (digit_lt hex c Dc). destruct hex; lia.
Qed.
Lemma mant_bound hex s : Forall (mant_digit hex) s -> 0 <= mant_val hex s < 2 ^ (4 * Z.of_nat (length s)).
Proof. intros D. split; [apply (mv_nonneg hex s 0); [lia|exact D]|]. apply (mv_bound hex s 0 0); [lia| |exact D]. rewrite Z.pow_0_r. lia. Qed.
Lemma rf_big neg base m e : 2 <= base -> 0 < m -> 1024 <= e -> round_float neg base m e = None.
Proof.
  intros Bs M E. apply (round_float_range neg base m e (m * base ^ e) 1); try lia.
  assert (B2 : 0 <= 2 <= base) by lia. unfold too_large. rewrite Z.mul_1_l. pose proof (Z.pow_le_mono_r 2 1024 e ltac:(lia) E) as A. pose proof (Z.pow_le_mono_l 2 base e B2) as A2. assert (A3 : 0 < 2 ^ 970) by reflexivity. assert (A4 : 0 < 2 ^ 1024) by reflexivity.
    set (u := 2 ^ 1024) in *. set (v := 2 ^ 970) in *. set (w := base ^ e) in *. set (y := 2 ^ e) in *. clearbody u v w y. rewrite Z.abs_eq by nia. nia.
Qed.
Lemma rf_small neg base m e : 2 <= base -> 0 <= m -> e < 0 -> 2 * m * unit_ < base ^ (- e) -> round_float neg base m e = Some (with_sign neg (mag_bits 0)).
Proof.
  intros Bs M E L. unfold round_float. destruct (0 <=? e) eqn:X; [apply Z.leb_le in X; lia|]. pose proof (Z.pow_pos_nonneg base (- e) ltac:(lia) ltac:(lia)) as D.
  assert (U : 0 < unit_) by (apply pow2_pos; lia). assert (R : round_mag (m * unit_) (base ^ (- e)) = 0).
  { set (d := base ^ (- e)) in *. set (u := unit_) in *. clearbody d u. unfold round_mag. rewrite (Z.div_small (m * u) d) by nia. change (ulp_exp 0) with 0. rewrite Z.pow_0_r, !Z.mul_1_r.
    unfold round_even. rewrite Z.div_small, Z.mod_small by nia. assert (2 * (m * u) <? d = true) as -> by (apply Z.ltb_lt; nia). reflexivity. }
  rewrite R. reflexivity.
Qed.
Lemma rf_zero neg base e : 2 <= base -> round_float neg base 0 e = Some (with_sign neg (mag_bits 0)).
Proof.
  intros Bs. unfold round_float. rewrite !Z.mul_0_l. assert (G : forall q, 0 < q -> round_mag 0 q = 0).
  { intros q Q. unfold round_mag. rewrite Z.div_0_l by lia. change (ulp_exp 0) with 0. rewrite Z.pow_0_r, !Z.mul_1_r. unfold round_even. rewrite Z.div_0_l, Z.mod_0_l by lia. assert (2 * 0 <? q = true) as -> by (apply Z.ltb_lt; lia). reflexivity. }
  destruct (0 <=? e) eqn:X; (rewrite G; [reflexivity|]); [lia|]. apply Z.leb_gt in X. apply Z.pow_pos_nonneg; lia.
Qed.
Lemma rf_cap neg base m k e e' : 2 <= base -> 0 <= k <= 8000 -> 0 <= m < 2 ^ k -> e' = e \/ (2000 <= e' <= e) \/ (e <= e' <= -10000) -> round_float neg base m e' = round_float neg base m e.
Proof.
  intros Bs K M [->|[H|H]]; [reflexivity| |].
  - destruct (Z.eq_dec m 0) as [->|]; [rewrite !rf_zero by exact Bs; reflexivity|]. rewrite !rf_big by lia. reflexivity.
  - assert (G : forall f, f <= -10000 -> 2 * m * unit_ < base ^ (- f)).
    { intros f F. assert (A : 2 ^ (1 + k + 1074) <= 2 ^ (- f)) by (apply Z.pow_le_mono_r; lia). rewrite !Z.pow_add_r in A by lia. pose proof (Z.pow_le_mono_l 2 base (- f) ltac:(lia)) as A2.
      unfold unit_. pose proof (pow2_pos 1074 ltac:(lia)) as U. set (u := 2 ^ 1074) in *. set (y := 2 ^ (- f)) in *. set (w := base ^ (- f)) in *. set (z := 2 ^ k) in *. clearbody u y w z. change (2 ^ 1) with 2 in A. nia. }
    rewrite !rf_small; try lia; try (apply G; lia). reflexivity.
Qed.

(** ** The whole text *)
Lemma spelled_fold w : Forall (fun l => (97 <= nat_of_ascii l <= 122)%nat) w -> forall u, equal_fold u w = true <-> spelled w u.
Proof.
  unfold equal_fold. induction 1 as [|l w L W IH]; intros u.
  - destruct u as [|c u]; cbn [map]; split; intros H; try discriminate H; try constructor; inversion H.
  - destruct u as [|c u]; cbn [map]; [split; intros H; [discriminate H|inversion H]|].
    assert (C : lower_ascii c = lower_ascii l <-> c = l \/ (nat_of_ascii c + 32 = nat_of_ascii l)%nat).
    { assert (Ll : lower_ascii l = l). { unfold lower_ascii. destruct (Nat.leb 65 (nat_of_ascii l) && Nat.leb (nat_of_ascii l) 90) eqn:E; [|reflexivity]. lia. }
      rewrite Ll. unfold lower_ascii. destruct (Nat.leb 65 (nat_of_ascii c) && Nat.leb (nat_of_ascii c) 90) eqn:E.
      - split.
        + intros <-. right. rewrite nat_ascii_embedding by lia. reflexivity.
        + intros [->|X]; [lia|]. rewrite X. apply ascii_nat_embedding.
      - split; [auto|]. intros [->|X]; [reflexivity|lia]. }
    rewrite beqb_eq. split.
    + intros H. injection H as H1 H2. constructor; [apply C, H1|apply IH; rewrite beqb_eq; exact H2].
    + intros H. inversion H; subst. f_equal; [apply C; assumption|]. apply beqb_eq, IH. assumption.
Qed.
Lemma inf_word : Forall (fun l => (97 <= nat_of_ascii l <= 122)%nat) (B "inf") /\ Forall (fun l => (97 <= nat_of_ascii l <= 122)%nat) (B "infinity") /\ Forall (fun l => (97 <= nat_of_ascii l <= 122)%nat) (B "nan").
Proof. repeat split; repeat constructor; vm_compute; lia. Qed.
Lemma bare_in c s : chr 95 c = false -> In c s -> In c (bare s).
Proof. intros H I. unfold bare. apply filter_In. split; [exact I|]. rewrite under_eq, H. reflexivity. Qed.
Lemma plain_chars s ip fp x : plain false s ip fp x -> Forall dec_char s.
Proof.
  intros (fr & ex & -> & Hi & Hf & _ & He). assert (G : forall l, Forall (mant_digit false) l -> Forall dec_char l).
  { intros l. apply Forall_impl. intros c [D|[X _]]; [left; exact D|discriminate X]. }
  apply Forall_app. split; [apply G, Hi|]. apply Forall_app. split.
  - inversion Hf; subst; [constructor|]. constructor; [right; cbn; tauto|]. apply G. assumption.
  - inversion He; subst; [constructor|]. constructor; [right; cbn in *; tauto|]. apply Forall_app. split; [eapply sign_chars; eassumption|]. apply digit_chars. exact (proj2 H1).
Qed.
Lemma sign_no_nan t neg c r : sign_text t neg -> lower_ascii c <> ascii_of_nat 110 -> equal_fold (t ++ c :: r) (B "nan") = false.
Proof.
  intros Ht N. inversion Ht; subst; cbn [app]; apply (fold_head _ _ (ascii_of_nat 110)); [|vm_compute; discriminate|vm_compute; discriminate].
  change (lower_ascii (ascii_of_nat 110)) with (ascii_of_nat 110). exact N.
Qed.
Lemma parse_literal s neg hex ip fp x : literal s neg hex ip fp x -> Z.abs x < 100000 \/ (length (ip ++ fp) <= 2000)%nat ->
  parse_float s = round_float neg (if hex then 2 else 10) (mant_val hex (ip ++ fp)) (x - (if hex then 4 else 1) * Z.of_nat (length fp)).
Proof.
  intros (t & p & u & -> & Ht & Hp & Sp & Pl) Hx.
  assert (RF : exists x', read_float hex u = Some (mant_val hex (ip ++ fp), x' - (if hex then 4 else 1) * Z.of_nat (length fp)) /\
    round_float neg (if hex then 2 else 10) (mant_val hex (ip ++ fp)) (x' - (if hex then 4 else 1) * Z.of_nat (length fp)) = round_float neg (if hex then 2 else 10) (mant_val hex (ip ++ fp)) (x - (if hex then 4 else 1) * Z.of_nat (length fp))).
  { rewrite (read_bare hex u Sp). destruct Hx as [Hx|Hx]; [exists x; split; [apply read_plain; assumption|reflexivity]|].
    destruct (read_plain_cap hex _ _ _ _ Pl) as (x' & E & C). exists x'. split; [exact E|]. destruct Pl as (fr & ex & _ & Hi & Hf & _ & _).
    assert (Hfp : Forall (mant_digit hex) fp) by (inversion Hf; subst; [constructor|assumption]).
    pose proof (mant_bound hex (ip ++ fp) (proj2 (Forall_app _ _ _) (conj Hi Hfp))) as M. rewrite app_length in Hx, M.
    apply (rf_cap neg _ _ (4 * Z.of_nat (length ip + length fp))); [destruct hex; lia|lia|exact M|]. destruct hex; lia. }
  destruct RF as (x' & RF & RR). rewrite <- RR. clear RR Hx.
  assert (Hd : exists c r, p ++ u = c :: r /\ (is_digit c \/ c = ascii_of_nat 46)).
  { destruct hex; cbn in Hp.
    - exists (ascii_of_nat 48), (skipn 1 p ++ u). split; [destruct Hp as [->| ->]; reflexivity|]. left. split; vm_compute; lia.
    - subst p. cbn [app]. destruct u as [|c r]; [destruct Pl as (fr & ex & E & _ & Hf & Ne & _); exfalso; apply Ne; destruct ip; [|discriminate E]; destruct fr; [|discriminate E]; inversion Hf; reflexivity|].
      exists c, r. split; [reflexivity|]. destruct (chr 95 c) eqn:C95.
      { exfalso. apply chr_eq in C95; [|lia]. subst c. destruct (Sp [] r eq_refl) as [[[X _]|(a' & d & X & _)] _]; [discriminate X|destruct a'; discriminate X]. }
      rewrite bare_cons, C95 in Pl. destruct Pl as (fr & ex & E & Hi & Hf & Ne & _). destruct ip as [|d ip].
      + inversion Hf; subst; [destruct Ne; reflexivity|]. injection E as E _. right. exact E.
      + injection E as -> _. inversion Hi as [|? ? [D|[X _]] _]; subst; [left; exact D|discriminate X]. }
  destruct Hd as (c & r & Eu & Hc). assert (N : nat_of_ascii c <> 43%nat /\ nat_of_ascii c <> 45%nat /\ nat_of_ascii c <> 105%nat /\ nat_of_ascii c <> 110%nat /\ lower_ascii c = c).
  { destruct Hc as [D| ->]; [pose proof (digit_lower c D); destruct D; repeat split; try lia; assumption|]. repeat split; vm_compute; lia || reflexivity. }
  destruct N as (N1 & N2 & N3 & N4 & N5). unfold parse_float. rewrite (read_sign_text t neg (p ++ u) Ht) by (intros ? ? X; rewrite Eu in X; injection X as <- <-; auto).
  assert (F1 : equal_fold (p ++ u) (B "inf") = false). { rewrite Eu. apply (fold_head c r (ascii_of_nat 105)). rewrite N5. intros X. apply N3. rewrite X. reflexivity. }
  assert (F2 : equal_fold (p ++ u) (B "infinity") = false). { rewrite Eu. apply (fold_head c r (ascii_of_nat 105)). rewrite N5. intros X. apply N3. rewrite X. reflexivity. }
  assert (F3 : equal_fold (t ++ p ++ u) (B "nan") = false). { rewrite Eu. apply (sign_no_nan t neg c r Ht). rewrite N5. intros X. apply N4. rewrite X. reflexivity. }
  rewrite F1, F2, F3. cbn [orb].
  assert (Hh : match p ++ u with z :: y :: _ :: _ => chr 48 z && chr 120 (lower_ascii y) | _ => false end = hex).
  { destruct hex; cbn in Hp.
    - destruct u as [|w u]; [destruct Pl as (fr & ex & E & _ & Hf & Ne & _); exfalso; apply Ne; destruct ip; [|discriminate E]; destruct fr; [|discriminate E]; inversion Hf; reflexivity|].
      destruct Hp as [->| ->]; reflexivity.
    - subst p. cbn [app]. destruct u as [|z [|y [|w v]]]; try reflexivity. apply andb_false_iff. right. pose proof (plain_chars _ _ _ _ Pl) as Ch. rewrite Forall_forall in Ch.
      destruct (chr 95 y) eqn:Y95; [apply chr_eq in Y95; [|lia]; subst y; reflexivity|]. apply dec_char_lower, Ch, bare_in; [exact Y95|right; left; reflexivity]. }
  rewrite Hh. cbv zeta. match goal with |- context [read_float hex ?w] => assert (Sk : w = u) by (destruct hex; cbn in Hp; [destruct Hp as [->| ->]|subst p]; reflexivity); rewrite Sk end.
  rewrite RF. reflexivity.
Qed.
Lemma literal_number s neg hex ip fp x : literal s neg hex ip fp x -> Z.abs x < 100000 \/ (length (ip ++ fp) <= 2000)%nat ->
  match parse_float s with Some b => nearest neg (signed neg (lit_num hex ip fp x)) (lit_den hex fp x) b | None => True end /\
  (parse_float s = None <-> too_large (lit_num hex ip fp x) (lit_den hex fp x)).
Proof.
  intros H Hx. rewrite (parse_literal s neg hex ip fp x H Hx). destruct H as (t & p & u & _ & _ & _ & _ & fr & ex & _ & Hi & Hf & _ & _).
  assert (Hfp : Forall (mant_digit hex) fp) by (inversion Hf; subst; [constructor|assumption]).
  pose proof (mant_bound hex (ip ++ fp) (proj2 (Forall_app _ _ _) (conj Hi Hfp))) as [M _]. unfold lit_num, lit_den. set (m := mant_val hex (ip ++ fp)) in *. set (l := Z.of_nat (length fp)). assert (L : 0 <= l) by (unfold l; lia).
  clearbody m l. set (bs := if hex then 2 else 10). assert (Bs : 2 <= bs) by (unfold bs; destruct hex; lia). set (h := if hex then 4 else 1). assert (Hh : 0 <= h) by (unfold h; destruct hex; lia).
  assert (E16 : (if hex then 16 else 10) ^ l = bs ^ (h * l)). { unfold bs, h. destruct hex; [change 16 with (2 ^ 4); rewrite <- Z.pow_mul_r by lia; reflexivity|rewrite Z.mul_1_l; reflexivity]. }
  rewrite E16. clear E16. assert (Hl : 0 <= h * l) by nia. set (k := h * l) in *. clearbody bs k.
  pose proof (Z.pow_pos_nonneg bs (Z.max 0 x) ltac:(lia) ltac:(lia)) as P1. rewrite <- (Z.pow_add_r bs k) by lia. pose proof (Z.pow_pos_nonneg bs (k + Z.max 0 (- x)) ltac:(lia) ltac:(lia)) as P2.
  assert (R1 : 0 <= x - k -> m * bs ^ Z.max 0 x = m * bs ^ (x - k) * bs ^ (k + Z.max 0 (- x))). { intros E. rewrite <- Z.mul_assoc, <- Z.pow_add_r by lia. do 2 f_equal. lia. }
  assert (R2 : x - k < 0 -> m * bs ^ Z.max 0 x * bs ^ (- (x - k)) = m * bs ^ (k + Z.max 0 (- x))). { intros E. rewrite <- Z.mul_assoc, <- Z.pow_add_r by lia. do 2 f_equal. lia. }
  pose proof (round_float_spec neg bs m (x - k) (m * bs ^ Z.max 0 x) (bs ^ (k + Z.max 0 (- x))) ltac:(lia) M P2 ltac:(nia) R1 R2) as S.
  split; [destruct (round_float neg bs m (x - k)); [exact S|exact I]|]. split; [intros E; rewrite E in S; exact S|].
  intros T. apply (round_float_range neg bs m (x - k) (m * bs ^ Z.max 0 x) (bs ^ (k + Z.max 0 (- x)))); try assumption; try lia; nia.
Qed.
Lemma infinity_parse s neg : infinity_text s neg -> parse_float s = Some (with_sign neg inf_bits).
Proof.
  intros (t & u & -> & Ht & Hu). destruct inf_word as (W1 & W2 & _).
  assert (F : equal_fold u (B "inf") || equal_fold u (B "infinity") = true) by (apply orb_true_iff; rewrite !spelled_fold by assumption; exact Hu).
  unfold parse_float. rewrite (read_sign_text t neg u Ht), F; [reflexivity|].
  intros c r ->. assert (C : c = ascii_of_nat 105 \/ (nat_of_ascii c + 32 = 105)%nat). { destruct Hu as [Hu|Hu]; inversion Hu; subst; assumption. }
  destruct C as [->|C]; [vm_compute; lia|lia].
Qed.
Lemma nan_parse s : nan_text s -> parse_float s = Some nan_bits.
Proof.
  intros H. destruct inf_word as (W1 & W2 & W3). pose proof (proj2 (spelled_fold _ W3 s) H) as F. unfold nan_text, spelled in H. inversion H as [|c l r w C R]; subst.
  assert (C' : c = ascii_of_nat 110 \/ (nat_of_ascii c + 32 = 110)%nat) by exact C. clear C.
  assert (Nc : nat_of_ascii c <> 43%nat /\ nat_of_ascii c <> 45%nat /\ lower_ascii c = ascii_of_nat 110).
  { destruct C' as [->|C]; [vm_compute; repeat split; lia || reflexivity|]. assert (c = ascii_of_nat 78) as -> by (rewrite <- (ascii_nat_embedding c); f_equal; lia). vm_compute. repeat split; lia || reflexivity. }
  destruct Nc as (N1 & N2 & N3). unfold parse_float. cbn [read_sign]. rewrite (proj2 (chr_false 43 c) N1), (proj2 (chr_false 45 c) N2).
  assert (G : equal_fold (c :: r) (B "inf") || equal_fold (c :: r) (B "infinity") = false).
  { apply orb_false_iff. split; apply (fold_head c r (ascii_of_nat 105)); rewrite N3; vm_compute; discriminate. }
  rewrite G, F. reflexivity.
Qed.
Lemma parse_grammar s b : parse_float s = Some b -> float_text s.
Proof.
  intros H. destruct inf_word as (W1 & W2 & W3). unfold parse_float in H. destruct (read_sign s) as [neg t] eqn:RS. apply read_sign_inv in RS as (sg & -> & Hs).
  destruct (equal_fold t (B "inf") || equal_fold t (B "infinity")) eqn:EI.
  { right. left. exists neg, sg, t. split; [reflexivity|]. split; [exact Hs|]. rewrite orb_true_iff, !spelled_fold in EI by assumption. exact EI. }
  destruct (equal_fold (sg ++ t) (B "nan")) eqn:EN; [right; right; apply spelled_fold; assumption|]. left.
  set (hex := match t with z :: x :: _ :: _ => chr 48 z && chr 120 (lower_ascii x) | _ => false end) in *. cbv zeta in H.
  assert (Pf : exists p u, t = p ++ u /\ prefix_text hex p /\ (if hex then skipn 2 t else t) = u).
  { destruct hex eqn:EH; [|exists [], t; repeat split; reflexivity]. destruct t as [|z [|x [|w u]]]; try discriminate EH. apply andb_true_iff in EH as [E1 E2]. apply chr_eq in E1; [|lia]. subst z.
    exists [ascii_of_nat 48; x], (w :: u). split; [reflexivity|]. split; [|reflexivity]. cbn.
    assert (G : forall c, implb (chr 120 (lower_ascii c)) (existsb (Ascii.eqb c) (B "xX")) = true) by (apply (all_ascii (fun c => implb (chr 120 (lower_ascii c)) (existsb (Ascii.eqb c) (B "xX")))); vm_compute; reflexivity).
    specialize (G x). rewrite E2 in G. cbn [implb] in G. apply existsb_exists in G as (d & I & E). apply Ascii.eqb_eq in E. subst d. destruct I as [<-|[<-|[]]]; [left|right]; reflexivity. }
  destruct Pf as (p & u & -> & Hp & Eu). match type of H with context [read_float hex ?w] => replace w with u in H by (symmetry; exact Eu) end. destruct (read_float hex u) as [[m e]|] eqn:RF; [|discriminate H].
  destruct (read_float_grammar hex u _ RF) as (Sp & ip & fp & x & Pl). exists neg, hex, ip, fp, x. exists sg, p, u. auto.
Qed.
