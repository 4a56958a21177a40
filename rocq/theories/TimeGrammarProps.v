(** Property theorems C182: which texts are times. *)
From Verif Require Import GoBase GoBaseFacts IdModel TimeModel TimeSpec TimeCal TimeProofs TimeGrammar TimeGrammarProofs TypeModel ParamModel JsonModel JsonSpec JsonProofs JsonGrammar JsonGrammarProofs TimeProps.
From Verif Require XsqlRender.
Open Scope Z_scope.

(** ** C182: Exactly the texts of times are read *)
(** ParseTime of a text that is a time (TimeGrammar) is the instant it denotes, cut
    to milliseconds; of any other text it is the zero time. *)
Lemma parse_time_of s : s <> [] -> parse_time s = trunc_ms (match (match length s with 19%nat => parse_datetime s | 10%nat => parse_dateonly s | _ => parse_rfc3339 s end) with Some t => t | None => zero_time end).
Proof. intros N. unfold parse_time. destruct s; [congruence|reflexivity]. Qed.
Lemma by_length s t : match length s with 19%nat => parse_datetime s | 10%nat => parse_dateonly s | _ => parse_rfc3339 s end = Some t <-> time_text s t.
Proof.
  unfold time_text. assert (C : length s = 10%nat \/ length s = 19%nat \/ length s <> 10%nat /\ length s <> 19%nat) by lia. destruct C as [E|[E|[N1 N2]]].
  - rewrite E, date_only_iff. split; [auto|]. intros [[_ H]|[[H _]|(H & _)]]; [exact H|lia|congruence].
  - rewrite E, date_time_iff. split; [auto|]. intros [[H _]|[[_ H]|(_ & H & _)]]; [lia|exact H|congruence].
  - assert (E : match length s with 19%nat => parse_datetime s | 10%nat => parse_dateonly s | _ => parse_rfc3339 s end = parse_rfc3339 s) by (revert N1 N2; generalize (length s) as n; intros n N1 N2; do 20 (destruct n as [|n]; [first [reflexivity|congruence]|]); reflexivity).
    rewrite E, rfc3339_iff. split; [auto|]. intros [[H _]|[[H _]|(_ & _ & H)]]; [congruence|congruence|exact H].
Qed.
Theorem C182_parse : forall s t, time_text s t -> parse_time s = mkTime (t_sec t) (floor_ms (t_nsec t)) /\ 0 <= t_nsec t < 1000000000.
Proof.
  intros s t H. apply by_length in H.
  assert (Ok : time_ok t). { destruct (length s) as [|n]; [exact (parse_rfc3339_ok _ _ H)|]. do 19 (destruct n as [|n]; [first [exact (parse_rfc3339_ok _ _ H)|exact (parse_dateonly_ok _ _ H)|exact (parse_datetime_ok _ _ H)]|]). exact (parse_rfc3339_ok _ _ H). }
  split; [|exact Ok]. rewrite parse_time_of by (intros ->; discriminate H). rewrite H, trunc_eq by exact Ok. f_equal. unfold floor_ms. pose proof (Z.div_mod (t_nsec t) 1000000 ltac:(lia)). lia.
Qed.
Theorem C182_other : forall s, (forall t, ~ time_text s t) -> parse_time s = zero_time.
Proof.
  intros s H. destruct s as [|c s]; [reflexivity|]. rewrite parse_time_of by discriminate.
  destruct (match length (c :: s) with 19%nat => parse_datetime (c :: s) | 10%nat => parse_dateonly (c :: s) | _ => parse_rfc3339 (c :: s) end) as [t|] eqn:E; [|reflexivity].
  apply by_length in E. destruct (H t E).
Qed.
(** A text denotes one instant. *)
Theorem C182_unique : forall s t u, time_text s t -> time_text s u -> t = u.
Proof. intros s t u H1 H2. apply by_length in H1, H2. congruence. Qed.
(** Scan stores what ParseTime reads. *)
Theorem C182_scan : forall old s t, time_text s t -> time_scan old (TStr s) = (mkTime (t_sec t) (floor_ms (t_nsec t)), true).
Proof. intros old s t H. cbn [time_scan]. destruct (C182_parse s t H) as [-> _]. reflexivity. Qed.

(** *** JSON *)
(** What ends with the closing quote is a JSON string. *)
Lemma enc_bytes r : scalar r -> r < 128 /\ utf8_enc r = [zb r] \/ 128 <= r /\ Forall (fun c => 128 <= byte c) (utf8_enc r).
Proof.
  intros H. assert (P : 0 <= r < 1114112) by (unfold scalar in H; lia). unfold utf8_enc.
  assert (M : forall z, 128 <= byte (zb (128 + z mod 64))) by (intros z; pose proof (Z.mod_pos_bound z 64 ltac:(lia)); rewrite byte_zb; lia).
  destruct (Z.ltb_spec r 128). { left. auto. } right. split; [lia|].
  assert (D1 : 0 <= r / 64 < 32 \/ 2048 <= r) by (destruct (Z.le_gt_cases 2048 r); [lia|left; split; [apply Z.div_pos; lia|apply Z.div_lt_upper_bound; lia]]).
  destruct (Z.ltb_spec r 2048). { constructor; [rewrite byte_zb; lia|]. repeat (constructor; [apply M|]). constructor. }
  assert (D2 : 0 <= r / 4096 < 16 \/ 65536 <= r) by (destruct (Z.le_gt_cases 65536 r); [lia|left; split; [apply Z.div_pos; lia|apply Z.div_lt_upper_bound; lia]]).
  destruct (Z.ltb_spec r 65536). { constructor; [rewrite byte_zb; lia|]. repeat (constructor; [apply M|]). constructor. }
  assert (D3 : 0 <= r / 262144 < 16) by (split; [apply Z.div_pos; lia|apply Z.div_lt_upper_bound; lia]).
  constructor; [rewrite byte_zb; lia|]. repeat (constructor; [apply M|]). constructor.
Qed.
Lemma tail_plain c s : c <> dquote -> c <> ascii_of_nat 92 -> json_tail (c :: s) = (32 <=? nat_of_ascii c)%nat && json_tail s.
Proof. intros N1 N2. cbn [json_tail]. destruct (ascii_dec c dquote); [contradiction|]. destruct (ascii_dec c (ascii_of_nat 92)); [contradiction|]. reflexivity. Qed.
Lemma high_byte c : 128 <= byte c -> c <> dquote /\ c <> ascii_of_nat 92 /\ (32 <=? nat_of_ascii c)%nat = true.
Proof. intros H. split; [intros ->; vm_compute in H; apply H; reflexivity|]. split; [intros ->; vm_compute in H; apply H; reflexivity|]. apply Nat.leb_le. unfold byte in H. lia. Qed.
Lemma tail_high p : Forall (fun c => 128 <= byte c) p -> forall s, json_tail (p ++ s) = json_tail s.
Proof. induction 1 as [|c p Hc _ IH]; intros s; [reflexivity|]. cbn [app]. destruct (high_byte c Hc) as (N1 & N2 & L). rewrite tail_plain, L by assumption. apply IH. Qed.
Lemma is_hex_iff c : is_hex c = true <-> exists n, hex c n.
Proof.
  unfold is_hex, hex, byte. split.
  - intros H. apply orb_true_iff in H. rewrite orb_true_iff, !andb_true_iff, !Nat.leb_le in H. destruct H as [[H|H]|H]; [exists (Z.of_nat (nat_of_ascii c) - 48)|exists (Z.of_nat (nat_of_ascii c) - 55)|exists (Z.of_nat (nat_of_ascii c) - 87)]; lia.
  - intros [n He]. destruct He as [[He _]|[[He _]|[He _]]]; apply orb_true_iff; [left; apply orb_true_iff; left|right|left; apply orb_true_iff; right]; apply andb_true_iff; split; apply Nat.leb_le; lia.
Qed.
Lemma tail_u a b c d s : json_tail (uxxxx [a; b; c; d] ++ s) = is_hex a && is_hex b && is_hex c && is_hex d && json_tail s.
Proof. reflexivity. Qed.
Lemma tail_hex h u : hex4 h u -> forall s, json_tail (uxxxx h ++ s) = json_tail s.
Proof.
  intros (a & b & c & d & w & x & y & z & -> & Ha & Hb & Hc & Hd & _) s. rewrite tail_u.
  rewrite (proj2 (is_hex_iff a) (ex_intro _ _ Ha)), (proj2 (is_hex_iff b) (ex_intro _ _ Hb)), (proj2 (is_hex_iff c) (ex_intro _ _ Hc)), (proj2 (is_hex_iff d) (ex_intro _ _ Hd)). reflexivity.
Qed.
Lemma tail_chars b x : chars b x -> json_tail (b ++ [dquote]) = true.
Proof.
  induction 1 as [|r s x Sr R1 R2 R3 _ IH|c s x Hc _ _ IH|c n s x He _ IH|h u s x Hh _ _ _ IH|h u h' v s x Hh _ Hh' _ _ IH|h u s x Hh _ _ _ IH].
  - reflexivity.
  - rewrite app_assoc_reverse. rewrite <- IH. destruct (enc_bytes r Sr) as [[Lr Er]|[_ Er]]; [|apply tail_high; exact Er].
    pose proof (byte_zb r ltac:(lia)) as E. rewrite Er. cbn [app]. rewrite tail_plain.
    + replace (32 <=? nat_of_ascii (zb r))%nat with true; [reflexivity|]. symmetry. apply Nat.leb_le. unfold byte in E. lia.
    + intros X. apply R2. rewrite <- E, X. reflexivity.
    + intros X. apply R3. rewrite <- E, X. reflexivity.
  - rewrite <- IH. exact (tail_high [c] ltac:(constructor; [exact Hc|constructor]) (s ++ [dquote])).
  - assert (E : json_tail ((ascii_of_nat 92 :: c :: s) ++ [dquote]) = json_tail (s ++ [dquote])); [|rewrite E; exact IH].
    unfold escape in He. cbn [In] in He. repeat (destruct He as [[= <- _]|He]; [reflexivity|]). destruct He.
  - rewrite app_assoc_reverse, (tail_hex h u Hh). exact IH.
  - rewrite !app_assoc_reverse, (tail_hex h u Hh), (tail_hex h' v Hh'). exact IH.
  - rewrite app_assoc_reverse, (tail_hex h u Hh). exact IH.
Qed.
Lemma escape_in c : in_set (dquote :: ascii_of_nat 92 :: B "/bfnrt") c = true -> exists n, escape c n.
Proof.
  unfold in_set, escape. cbn [B list_ascii_of_string existsb In]. intros H. repeat (apply orb_true_iff in H; destruct H as [H|H]; [destruct (ascii_dec c _) as [->|] in H; [|discriminate]; eexists; tauto|]). discriminate.
Qed.
Lemma chars_tail n : forall s, (length s < n)%nat -> json_tail s = true -> exists b x, s = b ++ [dquote] /\ chars b x.
Proof.
  induction n as [|n IH]; intros s L H; [lia|]. destruct s as [|c s]; [discriminate|]. cbn [length] in L.
  destruct (ascii_dec c dquote) as [->|N1].
  { exists [], []. split; [|constructor]. cbn [json_tail] in H. destruct (ascii_dec dquote dquote); [|congruence]. destruct s; [reflexivity|discriminate]. }
  destruct (ascii_dec c (ascii_of_nat 92)) as [->|N2].
  - destruct s as [|e s]; [discriminate H|]. cbn [length] in L.
    assert (E : json_tail (ascii_of_nat 92 :: e :: s) = if in_set (dquote :: ascii_of_nat 92 :: B "/bfnrt") e then json_tail s else if ascii_dec e (ascii_of_nat 117) then match s with h1 :: h2 :: h3 :: h4 :: r => is_hex h1 && is_hex h2 && is_hex h3 && is_hex h4 && json_tail r | _ => false end else false) by reflexivity.
    rewrite E in H. clear E. destruct (in_set _ e) eqn:Ee.
    { destruct (escape_in e Ee) as [m Hm]. destruct (IH s ltac:(lia) H) as (b & x & -> & C). exists (ascii_of_nat 92 :: e :: b), (zb m :: x). split; [reflexivity|]. apply ch_escape; assumption. }
    destruct (ascii_dec e (ascii_of_nat 117)) as [->|]; [|discriminate]. clear Ee. destruct s as [|h1 [|h2 [|h3 [|h4 r]]]]; try discriminate. cbn [length] in L.
    apply andb_true_iff in H as [H T]. apply andb_true_iff in H as [H H4]. apply andb_true_iff in H as [H H3]. apply andb_true_iff in H as [H1 H2]. apply is_hex_iff in H1, H2, H3, H4. destruct H1 as [m1 H1], H2 as [m2 H2], H3 as [m3 H3], H4 as [m4 H4].
    set (h := [h1; h2; h3; h4]). set (u := m1 * 4096 + m2 * 256 + m3 * 16 + m4). assert (Hh : hex4 h u) by (exists h1, h2, h3, h4, m1, m2, m3, m4; repeat (split; [assumption || reflexivity|]); reflexivity).
    change (ascii_of_nat 92 :: ascii_of_nat 117 :: h1 :: h2 :: h3 :: h4 :: r) with (uxxxx h ++ r).
    assert (D : ~ high u /\ ~ low u \/ high u \/ low u) by (unfold high, low; lia). destruct D as [[D1 D2]|D].
    { destruct (IH r ltac:(lia) T) as (b & x & -> & C). exists (uxxxx h ++ b), (utf8_enc u ++ x). split; [rewrite app_assoc_reverse; reflexivity|]. apply ch_unicode; assumption. }
    destruct (second_half u r) as [[v r']|] eqn:S2.
    + assert (Su : surrogate u = true) by (unfold surrogate; unfold high, low in D; lia).
      destruct (second_sound u r v r' S2 Su) as (Hu & h' & l & -> & Hl & Ll & ->). rewrite (tail_hex h' l Hl) in T.
      assert (L' : (length r' < n)%nat) by (rewrite app_length in L; lia). destruct (IH r' L' T) as (b & x & -> & C).
      exists (uxxxx h ++ uxxxx h' ++ b), (utf8_enc (joined u l) ++ x). split; [rewrite !app_assoc_reverse; reflexivity|]. apply ch_pair; assumption.
    + destruct (IH r ltac:(lia) T) as (b & x & -> & C). exists (uxxxx h ++ b), (replacement ++ x). split; [rewrite app_assoc_reverse; reflexivity|].
      apply ch_half with u; try assumption. intros Hu h' v t Hv Lv X. subst b. rewrite app_assoc_reverse, (second_complete u h' v _ Hu Hv Lv) in S2. discriminate.
  - rewrite tail_plain in H by assumption. apply andb_true_iff in H as [Lc T]. apply Nat.leb_le in Lc.
    destruct (Z.lt_ge_cases (byte c) 128) as [Lo|Hi].
    + destruct (IH s ltac:(lia) T) as (b & x & -> & C). assert (Ec : utf8_enc (byte c) = [c]).
      { unfold utf8_enc. replace (byte c <? 128) with true by (symmetry; apply Z.ltb_lt; exact Lo). f_equal. unfold zb, byte. rewrite Nat2Z.id. apply ascii_nat_embedding. }
      exists (utf8_enc (byte c) ++ b), (utf8_enc (byte c) ++ x). split; [rewrite Ec; reflexivity|]. unfold byte in *. apply ch_char; try assumption.
      * unfold scalar. lia.
      * lia.
      * intros X. apply N1. rewrite <- (ascii_nat_embedding c). replace (nat_of_ascii c) with 34%nat by lia. reflexivity.
      * intros X. apply N2. rewrite <- (ascii_nat_embedding c). replace (nat_of_ascii c) with 92%nat by lia. reflexivity.
    + destruct (utf8_size (c :: s)) as [|m] eqn:Sz.
      * destruct (IH s ltac:(lia) T) as (b & x & -> & C). exists (c :: b), (replacement ++ x). split; [reflexivity|]. apply ch_bad; [exact Hi| |exact C].
        intros r t Sr X. apply (size_none _ _ Sz r (t ++ [dquote]) Sr). rewrite app_assoc, <- X. reflexivity.
      * destruct (utf8_size_scalar _ _ Sz) as (k & Sk & F). pose proof (firstn_skipn (S m) (c :: s)) as K. rewrite F in K. set (t := skipn (S m) (c :: s)) in K. clearbody t.
        destruct (enc_bytes k Sk) as [[Lk Ek]|[Hk Fk]].
        { exfalso. rewrite Ek in K. cbn [app] in K. injection K as K _. rewrite <- K, byte_zb in Hi; [lia|]. unfold scalar in Sk. lia. }
        assert (T' : json_tail t = true). { rewrite <- (tail_high _ Fk t), K. destruct (high_byte c Hi) as (_ & _ & L'). rewrite tail_plain, L' by assumption. exact T. }
        assert (Lt : (length t < n)%nat). { pose proof (f_equal (@length ascii) K) as Q. rewrite app_length in Q. cbn [length] in Q. pose proof (utf8_enc_nonempty k). destruct (utf8_enc k); [congruence|cbn [length] in Q; lia]. }
        destruct (IH t Lt T') as (b & x & -> & C). exists (utf8_enc k ++ b), (utf8_enc k ++ x). split; [rewrite <- K, app_assoc; reflexivity|]. apply ch_char; try assumption; lia.
Qed.
Lemma unquote_iff v s : TimeModel.unquote v = Some s <-> v = [dquote] ++ s ++ [dquote] /\ exists x, chars s x.
Proof.
  split.
  - intros H. pose proof (unquote_form v s H) as E. split; [exact E|]. subst v. unfold TimeModel.unquote in H. cbn [app] in H. destruct (ascii_dec dquote dquote); [|congruence].
    destruct (json_tail (s ++ [dquote])) eqn:T; [|discriminate]. destruct (chars_tail _ _ (Nat.lt_succ_diag_r _) T) as (b & x & E & C). apply app_inj_tail in E. destruct E as [-> _]. exists x. exact C.
  - intros [-> [x C]]. unfold TimeModel.unquote. cbn [app]. destruct (ascii_dec dquote dquote); [|congruence]. rewrite (tail_chars s x C), removelast_app by discriminate. cbn [removelast]. rewrite app_nil_r. reflexivity.
Qed.
Lemma plain_dig d : 0 <= d <= 9 -> plainc (digit_char d).
Proof. intros R. apply plain_digit. rewrite dec_digit_char by lia. discriminate. Qed.
Lemma plain_two v : 0 <= v <= 99 -> Forall plainc (two v).
Proof.
  intros R. unfold two. constructor; [apply plain_dig; split; [apply Z.div_pos; lia|apply Z.lt_succ_r, Z.div_lt_upper_bound; lia]|].
  constructor; [apply plain_dig; pose proof (Z.mod_pos_bound v 10 ltac:(lia)); lia|constructor].
Qed.
Lemma month_len_le y m : month_len y m <= 31. Proof. unfold month_len. repeat destruct (_ : bool); lia. Qed.
Lemma plain_app a b : Forall plainc a -> Forall plainc b -> Forall plainc (a ++ b). Proof. intros. apply Forall_app. auto. Qed.
Lemma plain_c c : c <> dquote -> c <> ascii_of_nat 92 -> (32 <=? nat_of_ascii c)%nat = true -> Forall plainc [c].
Proof. intros. constructor; [|constructor]. apply Nat.leb_le in H1. repeat split; assumption. Qed.
Lemma plain_rfc s t : rfc3339 s t -> Forall plainc s.
Proof.
  intros (D & n & C & c & F & ns & Zo & z & (y & m & d & G & Ry & ->) & (hs & h & mi & se & [Rh Hh] & Rm & Rs & -> & _) & HF & HZ & -> & _).
  apply gregorian_iff in G. destruct G as [_ [Vm Vd]]. pose proof (month_len_le y m) as ML.
  assert (Y1 : 0 <= y / 100 <= 99) by (split; [apply Z.div_pos; lia|apply Z.lt_succ_r, Z.div_lt_upper_bound; lia]). pose proof (Z.mod_pos_bound y 100 ltac:(lia)) as Y2.
  assert (PC : forall c, In c (B "-T:.,Z+") -> Forall plainc [c]). { intros e He. cbn [B list_ascii_of_string In] in He. repeat (destruct He as [<-|He]; [apply plain_c; [discriminate|discriminate|reflexivity]|]). destruct He. }
  assert (Dash : Forall plainc (B "-")) by (apply PC; cbn; tauto). assert (Colon : Forall plainc (B ":")) by (apply PC; cbn; tauto).
  apply plain_app; [unfold date_text; repeat apply plain_app; try assumption; apply plain_two; lia|]. apply plain_app; [apply PC; cbn; tauto|].
  apply plain_app. { apply plain_app; [destruct Hh as [->|[L ->]]; [apply plain_two; lia|constructor; [apply plain_dig; lia|constructor]]|]. repeat apply plain_app; try assumption; apply plain_two; lia. }
  apply plain_app.
  - destruct HF as [[-> _]|(p & l & Hp & _ & Fl & -> & _)]; [constructor|]. apply plain_app; [destruct Hp as [->| ->]; apply PC; cbn; tauto|]. apply Forall_map. eapply Forall_impl; [|exact Fl]. intros e He. apply plain_dig. exact He.
  - destruct HZ as [[-> _]|(oh & om & Roh & Rom & [[-> _]|[-> _]])]; [apply PC; cbn; tauto| |]; (apply plain_app; [apply PC; cbn; tauto|]); repeat apply plain_app; try assumption; apply plain_two; lia.
Qed.
Lemma pad_trim v data : (exists s, v = [dquote] ++ s ++ [dquote]) -> padded v data -> trim json_blanks data = v.
Proof. intros (s & ->) (a & b & Ha & Hb & ->). apply blanks_set in Ha, Hb. apply XsqlRender.trim_bare; [exact Ha|exact Hb|apply bare_quoted]. Qed.
Theorem C182_json : forall old data s t, padded ([dquote] ++ s ++ [dquote]) data -> rfc3339 s t -> time_unjson old data = (t, true).
Proof.
  intros old data s t P R. assert (Ns : s <> []) by (intros ->; apply rfc3339_iff in R; discriminate R).
  rewrite (C89_blanks old ([dquote] ++ s ++ [dquote]) data P) by (right; exists s; auto). unfold time_unjson. cbv zeta. rewrite trim_quoted, (unquote_quoted s (plain_rfc s t R)), (proj2 (rfc3339_iff s t) R).
  assert (E : is_empty ([dquote] ++ s ++ [dquote]) || beqb ([dquote] ++ s ++ [dquote]) [dquote; dquote] = false).
  { apply orb_false_iff. split; [reflexivity|]. apply beqb_neq. intros X. cbn [app] in X. injection X as X. destruct s as [|c s]; [congruence|]. injection X as _ X. destruct s; discriminate. }
  rewrite E. assert (E2 : beqb ([dquote] ++ s ++ [dquote]) (B "null") = false) by (apply beqb_neq; discriminate). rewrite E2. reflexivity.
Qed.
Lemma blanks_json a : TimeSpec.blanks a <-> JsonGrammar.blanks a.
Proof.
  unfold TimeSpec.blanks, JsonGrammar.blanks. rewrite Forall_forall. assert (K : forall c, In c [ascii_of_nat 32; ascii_of_nat 9; ascii_of_nat 13; ascii_of_nat 10] <-> blank c).
  { intros c. unfold blank, byte. cbn [In]. split.
    - intros [<-|[<-|[<-|[<-|[]]]]]; cbn; lia.
    - intros H. rewrite <- (ascii_nat_embedding c). destruct H as [H|[H|[H|H]]]; [replace (nat_of_ascii c) with 32%nat by lia|replace (nat_of_ascii c) with 9%nat by lia|replace (nat_of_ascii c) with 10%nat by lia|replace (nat_of_ascii c) with 13%nat by lia]; auto. }
  split; intros H c Hc; apply K, H, Hc.
Qed.
Lemma string_text data x : document data (JStr x) <-> exists s, padded ([dquote] ++ s ++ [dquote]) data /\ chars s x.
Proof.
  split.
  - intros (a & v & b & -> & Ba & V & Bb). inversion V as [| | | |t s (c & -> & C)| | | |]; subst. exists c. split; [|exact C]. exists a, b. split; [apply blanks_json; exact Ba|]. split; [apply blanks_json; exact Bb|reflexivity].
  - intros (s & (a & b & Ba & Bb & ->) & C). exists a, ([dquote] ++ s ++ [dquote]), b. split; [reflexivity|]. split; [apply blanks_json; exact Ba|]. split; [|apply blanks_json; exact Bb]. apply v_string. exists s. auto.
Qed.
(** Everything else is refused: the destination is zeroed when the text is a JSON
    string, and kept when it is not. *)
Theorem C182_json_refused : forall old data, data <> [] -> data <> [dquote; dquote] -> ~ padded (B "null") data ->
  (forall s t, padded ([dquote] ++ s ++ [dquote]) data -> ~ rfc3339 s t) ->
  ((exists x, document data (JStr x)) -> time_unjson old data = (zero_time, false)) /\
  ((forall x, ~ document data (JStr x)) -> time_unjson old data = (old, false)).
Proof.
  intros old data N1 N2 N3 R. unfold time_unjson. assert (E1 : is_empty data = false) by (destruct data; [congruence|reflexivity]).
  rewrite E1, (proj2 (beqb_neq data [dquote; dquote]) N2). cbn [orb]. cbv zeta. destruct (XsqlRender.trim_decomp json_blanks data) as (l & r & E & Fl & Fr & _). apply blanks_set in Fl, Fr.
  assert (E3 : beqb (trim json_blanks data) (B "null") = false). { apply beqb_neq. intros X. rewrite X in E. apply N3. exists l, r. auto. }
  rewrite E3. destruct (TimeModel.unquote (trim json_blanks data)) as [s|] eqn:U.
  - apply unquote_iff in U. destruct U as [U [x C]]. assert (P : padded ([dquote] ++ s ++ [dquote]) data) by (rewrite U in E; exists l, r; auto).
    split; [|intros H; destruct (H x); apply string_text; exists s; auto]. intros _. destruct (parse_rfc3339 s) as [t|] eqn:Q; [|reflexivity]. apply rfc3339_iff in Q. destruct (R s t P Q).
  - split; [|reflexivity]. intros (x & D). exfalso. apply string_text in D. destruct D as (s & P & C). pose proof (pad_trim _ _ (ex_intro _ s eq_refl) P) as T. rewrite T in U.
    rewrite (proj2 (unquote_iff _ s) (conj eq_refl (ex_intro _ x C))) in U. discriminate.
Qed.
Example C182_ex : time_text (B "2024-02-29T9:05:00,1234567899+05:30") (mkTime (days_of 2024 2 29 * 86400 + 9 * 3600 + 5 * 60 - 19800) 123456789) /\
  parse_time (B "2024-02-29T9:05:00,1234567899+05:30") = mkTime (days_of 2024 2 29 * 86400 + 9 * 3600 + 5 * 60 - 19800) 123000000 /\
  time_text (B "2024-02-29  9:05:00") (mkTime (days_of 2024 2 29 * 86400 + 9 * 3600 + 5 * 60) 0) /\ parse_time (B "2023-02-29") = zero_time /\
  (forall t, ~ time_text (B "2023-02-29") t) /\ (forall t, ~ rfc3339 (B "2024-02-29T24:00:00Z") t) /\
  time_unjson leap_evening (B " ""2024-02-29T24:00:00Z"" ") = (zero_time, false) /\ time_unjson leap_evening (B "20240229") = (leap_evening, false).
Proof.
  assert (G : forall s t, match length s with 19%nat => parse_datetime s | 10%nat => parse_dateonly s | _ => parse_rfc3339 s end = Some t -> time_text s t) by (intros s t; apply by_length).
  split; [apply G; reflexivity|]. split; [reflexivity|]. split; [apply G; reflexivity|]. split; [reflexivity|].
  split; [intros t H; apply by_length in H; discriminate H|]. split; [intros t H; apply rfc3339_iff in H; discriminate H|]. split; reflexivity.
Qed.

(** ** Assumptions *)
Print Assumptions C182_parse.
Print Assumptions C182_other.
Print Assumptions C182_unique.
Print Assumptions C182_scan.
Print Assumptions C182_json.
Print Assumptions C182_json_refused.
