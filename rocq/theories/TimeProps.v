(** Property theorems C37 (Time), C50-C52, C89-C92. *)
From Verif Require Import GoBase GoBaseFacts IdModel TimeModel TimeSpec TimeCal TimeProofs.
From Verif Require XsqlRender.
Open Scope Z_scope.

(** A sample instant: 2024-02-29T23:59:59.120456789Z. *)
Definition leap_evening : gtime := mkTime (days_of 2024 2 29 * 86400 + 86399) 120456789.
Example leap_evening_ok : time_ok leap_evening /\ year_of leap_evening = 2024.
Proof. split; [split; reflexivity || discriminate|reflexivity]. Qed.

(** ** C37 *)
Theorem C37_time_null_partial : forall old, time_scan old TNil = (zero_time, true).
Proof. reflexivity. Qed.

(** ** C50 *)
Theorem C50_unix_milli : forall v, int64 v ->
  unix_milli (from_unix_milli v) = v /\ ns_of (from_unix_milli v) = v * 1000000 + ns_of (time_unix 0 0) /\ time_utc (from_unix_milli v) = from_unix_milli v.
Proof.
  intros v H. destruct (from_unix_ns v) as [E K]. split; [apply unix_milli_back; exact H|]. split; [rewrite E; reflexivity|].
  destruct (ns_trunc _ K) as [E2 K2]. apply ns_inj; [exact K2|exact K|]. unfold time_utc. rewrite E2, E. unfold floor_ms, unix_epoch, nano.
  replace (v * 1000000 + 62135596800 * 1000000000) with ((v + 62135596800 * 1000) * 1000000) by lia. rewrite Z.div_mul by lia. reflexivity.
Qed.
(** UTC and Add give the last whole millisecond, ParseTime a whole millisecond. *)
Theorem C50_truncate : forall t d s, time_ok t ->
  ns_of (time_utc t) = floor_ms (ns_of t) /\ ns_of (xtime_add t d) = floor_ms (ns_of t + d) /\
  time_utc (time_utc t) = time_utc t /\ time_utc (xtime_add t d) = xtime_add t d /\ time_utc (parse_time s) = parse_time s.
Proof.
  intros t d s H. destruct (ns_add t d H) as [E K]. repeat split.
  - exact (proj1 (ns_trunc t H)).
  - unfold xtime_add. rewrite (proj1 (ns_trunc _ K)), E. reflexivity.
  - apply trunc_idem; exact H.
  - apply trunc_idem; exact K.
  - destruct (parse_time_trunc s) as (u & Hu & ->). apply trunc_idem. exact Hu.
Qed.
Theorem C50_never_forward : forall t d, time_ok t ->
  0 <= ns_of t - ns_of (time_utc t) < 1000000 /\ 0 <= ns_of t + d - ns_of (xtime_add t d) < 1000000.
Proof.
  intros t d H. destruct (C50_truncate t d [] H) as (E1 & E2 & _). rewrite E1, E2. unfold floor_ms.
  pose proof (Z.mod_pos_bound (ns_of t) 1000000 ltac:(lia)). pose proof (Z.mod_pos_bound (ns_of t + d) 1000000 ltac:(lia)).
  pose proof (Z.div_mod (ns_of t) 1000000 ltac:(lia)). pose proof (Z.div_mod (ns_of t + d) 1000000 ltac:(lia)). lia.
Qed.
Example C50_ex_before_1970 : int64 (-1) /\ time_string (from_unix_milli (-1)) = B "1969-12-31T23:59:59.999Z".
Proof. split; [split; [discriminate|reflexivity]|reflexivity]. Qed.
Example C50_ex_add : xtime_add leap_evening 879543211 = mkTime (days_of 2024 3 1 * 86400) 0 /\ xtime_add leap_evening (-120456790) = mkTime (t_sec leap_evening - 1) 999000000.
Proof. split; reflexivity. Qed.

(** ** C51 *)
Theorem C51_string_parse : forall t, time_ok t -> 0 <= year_of t <= 9999 -> parse_time (time_string t) = time_utc t.
Proof.
  intros t H Hy. unfold time_string. destruct (is_zero t) eqn:Z0.
  - unfold is_zero in Z0. apply andb_true_iff in Z0 as [A Bz]. apply Z.eqb_eq in A, Bz. destruct t as [s n]. cbn in A, Bz. subst. reflexivity.
  - rewrite parse_time_long by (apply format_length; exact Hy). rewrite parse_format by (try lia; assumption). cbn [Z.of_nat].
    unfold time_utc. rewrite <- (trunc_idem t H), (trunc_eq t H). reflexivity.
Qed.
Theorem C51_zero : time_string zero_time = [] /\ parse_time [] = zero_time /\ (forall t, time_string t = [] -> t = zero_time).
Proof.
  split; [reflexivity|]. split; [reflexivity|]. intros t. unfold time_string. destruct (is_zero t) eqn:Z0.
  - intros _. unfold is_zero in Z0. apply andb_true_iff in Z0 as [A Bz]. apply Z.eqb_eq in A, Bz. destruct t. cbn in *. subst. reflexivity.
  - unfold time_format. intros H. apply app_eq_nil in H as [_ H]. discriminate.
Qed.
(** Outside the years 0..9999 the text is read back as the zero time. *)
Theorem C51_far_years : forall t, ~ 0 <= year_of t <= 9999 -> parse_time (time_string t) = zero_time.
Proof.
  intros t H. unfold time_string. destruct (is_zero t); [reflexivity|]. unfold time_format. apply parse_far. exact H.
Qed.
Example C51_ex : time_string leap_evening = B "2024-02-29T23:59:59.12Z" /\ parse_time (B "2024-02-29T23:59:59.12Z") = mkTime (t_sec leap_evening) 120000000.
Proof. split; reflexivity. Qed.
Example C51_ex_far : time_string (mkTime (days_of 10000 1 1 * 86400) 0) = B "10000-01-01T00:00:00Z".
Proof. reflexivity. Qed.

(** ** C52 *)
Theorem C52_scan_refuted : exists s, ~ (exists t, time_ok t /\ time_string t = s) /\ parse_rfc3339 s = None /\ parse_datetime s = None /\ parse_dateonly s = None /\
  forall old, time_scan old (TStr s) = (zero_time, true).
Proof.
  exists (B "hello"). split; [|repeat split]. intros (t & Ht & H). unfold time_string in H. destruct (is_zero t); [discriminate|].
  apply (f_equal (@length ascii)) in H. unfold time_format, fmt_date in H. destruct (civil _) as [[y m] d]. rewrite !app_length in H.
  assert (P : forall w n, (w <= length (pad w n))%nat) by (intros w n; unfold pad; rewrite app_length, repeat_length; lia).
  assert (Y : (4 <= length (fmt_year y))%nat). { unfold fmt_year. destruct (y <? 0); [cbn [length]; pose proof (P 4%nat (- y)); lia|apply P]. }
  pose proof (P 2%nat m). change (length (B "hello")) with 5%nat in H. lia.
Qed.
(** What is proved: texts printed by String are stored, a value that is no
    string, time or NULL is rejected and the destination kept. *)
Theorem C52_scan_partial : forall old t, time_ok t -> 0 <= year_of t <= 9999 ->
  time_scan old (TStr (time_string t)) = (time_utc t, true) /\ time_scan old TOther = (old, false).
Proof. intros old t H Hy. split; [cbn [time_scan]; rewrite C51_string_parse by assumption; reflexivity|reflexivity]. Qed.
Example C52_ex_blanks : parse_time (B "2024-02-29  5:04:05") = parse_time (B "2024-02-29T05:04:05Z"). Proof. reflexivity. Qed.
Example C52_ex_fraction : parse_time (B "2024-02-29 23:59:59.120") = zero_time. Proof. reflexivity. Qed.

(** ** C89: JSON *)
Lemma blanks_set a : blanks a <-> Forall (fun c => in_set json_blanks c = true) a.
Proof.
  unfold blanks. rewrite Forall_forall. split; intros H c Hc.
  - apply existsb_exists. exists c. split; [apply H, Hc|]. destruct (ascii_dec c c); congruence.
  - specialize (H c Hc). apply existsb_exists in H as (d & Hd & E). destruct (ascii_dec c d) as [->|]; [exact Hd|discriminate].
Qed.
Lemma bare_quoted s : XsqlRender.bare json_blanks ([dquote] ++ s ++ [dquote]).
Proof. right. split; [exists dquote, (s ++ [dquote]); split; reflexivity|exists ([dquote] ++ s), dquote; split; [now rewrite app_assoc|reflexivity]]. Qed.
Lemma trim_quoted s : trim json_blanks ([dquote] ++ s ++ [dquote]) = [dquote] ++ s ++ [dquote].
Proof.
  pose proof (XsqlRender.trim_bare json_blanks [] ([dquote] ++ s ++ [dquote]) [] (Forall_nil _) (Forall_nil _) (bare_quoted s)) as H. rewrite app_nil_r in H. exact H.
Qed.
Theorem C89_json : forall t old, time_ok t -> 0 <= year_of t <= 9999 ->
  exists data, time_json t = Some data /\ time_unjson old data = (t, true).
Proof.
  intros t old H Hy. unfold time_json. destruct (is_zero t) eqn:Z0.
  - exists [dquote; dquote]. split; [reflexivity|]. unfold is_zero in Z0. apply andb_true_iff in Z0 as [A Bz]. apply Z.eqb_eq in A, Bz. destruct t as [s n]. cbn in A, Bz. subst. reflexivity.
  - destruct ((0 <=? year_of t) && (year_of t <=? 9999)) eqn:E; [|exfalso; apply not_true_iff_false in E; apply E; rewrite andb_true_iff, !Z.leb_le; exact Hy].
    eexists. split; [reflexivity|]. unfold time_unjson. pose proof (format_length 9 t Hy) as L. cbv zeta. rewrite trim_quoted, unquote_quoted by (apply plain_format; assumption).
    assert (N1 : beqb ([dquote] ++ time_format 9 t ++ [dquote]) [dquote; dquote] = false).
    { apply beqb_neq. intros X. apply (f_equal (@length ascii)) in X. rewrite !app_length in X. cbn [length] in X. lia. }
    assert (N2 : beqb ([dquote] ++ time_format 9 t ++ [dquote]) (B "null") = false) by (apply beqb_neq; intros X; discriminate).
    rewrite N1, N2. cbn [app is_empty orb]. rewrite parse_format by (try lia; assumption). cbn [Z.of_nat].
    change (10 ^ (9 - Z.of_nat 9)) with 1. rewrite Z.mod_1_r, Z.sub_0_r. destruct t; reflexivity.
Qed.
Theorem C89_json_error : forall t, ~ 0 <= year_of t <= 9999 -> t <> zero_time -> time_json t = None.
Proof.
  intros t H N. unfold time_json. destruct (is_zero t) eqn:Z0.
  - exfalso. apply N. unfold is_zero in Z0. apply andb_true_iff in Z0 as [A Bz]. apply Z.eqb_eq in A, Bz. destruct t. cbn in *. subst. reflexivity.
  - destruct ((0 <=? year_of t) && (year_of t <=? 9999)) eqn:E; [|reflexivity]. exfalso. apply H. apply andb_true_iff in E as [E1 E2]. apply Z.leb_le in E1, E2. lia.
Qed.
(** The inputs that are not a time: empty text clears, null keeps, and nothing
    that lacks the quotes is accepted or changes the destination; blanks around
    a value do not matter. *)
Theorem C89_empty : forall old, time_unjson old [] = (zero_time, true) /\ time_unjson old ([dquote] ++ [dquote]) = (zero_time, true).
Proof. intros. split; reflexivity. Qed.
Theorem C89_unquoted : forall old data, data <> [] -> ~ padded (B "null") data -> (forall s, ~ padded ([dquote] ++ s ++ [dquote]) data) -> time_unjson old data = (old, false).
Proof.
  intros old data H1 H2 H3. unfold time_unjson. assert (E1 : is_empty data = false) by (destruct data; [congruence|reflexivity]).
  assert (E2 : beqb data [dquote; dquote] = false). { apply beqb_neq. intros ->. apply (H3 []). exists [], []. repeat split; try (intros c []). }
  rewrite E1, E2. cbv zeta. cbn [orb]. destruct (XsqlRender.trim_decomp json_blanks data) as (l & r & E & Fl & Fr & _). apply blanks_set in Fl, Fr.
  assert (E3 : beqb (trim json_blanks data) (B "null") = false). { apply beqb_neq. intros X. rewrite X in E. apply H2. exists l, r. auto. }
  rewrite E3. destruct (unquote (trim json_blanks data)) as [s|] eqn:U; [|reflexivity]. exfalso. apply unquote_form in U. rewrite U in E. apply (H3 s). exists l, r. auto.
Qed.
Theorem C89_blanks : forall old v data, padded v data -> (v = B "null" \/ exists s, s <> [] /\ v = [dquote] ++ s ++ [dquote]) -> time_unjson old data = time_unjson old v.
Proof.
  intros old v data (a & b & Ha & Hb & ->) Hv. apply blanks_set in Ha, Hb.
  assert (Bv : XsqlRender.bare json_blanks v). { destruct Hv as [->|(s & _ & ->)]; [right; split; [exists "n"%char, (B "ull"); split; reflexivity|exists (B "nul"), "l"%char; split; reflexivity]|apply bare_quoted]. }
  assert (Nv : v <> [] /\ v <> [dquote; dquote]). { destruct Hv as [->|(s & N & ->)]; [split; discriminate|]. split; [discriminate|]. intros X. cbn [app] in X. injection X as X. destruct s as [|c s]; [congruence|]. injection X as _ X. destruct s; discriminate. }
  assert (T : trim json_blanks v = v). { pose proof (XsqlRender.trim_bare json_blanks [] v [] (Forall_nil _) (Forall_nil _) Bv) as X. rewrite app_nil_r in X. exact X. }
  unfold time_unjson. cbv zeta. rewrite (XsqlRender.trim_bare json_blanks a v b Ha Hb Bv), T.
  assert (E1 : is_empty (a ++ v ++ b) = false). { destruct a; [|reflexivity]. destruct v; [destruct Nv; congruence|reflexivity]. }
  assert (E2 : is_empty v = false) by (destruct v; [destruct Nv; congruence|reflexivity]).
  assert (E3 : beqb v [dquote; dquote] = false) by (apply beqb_neq, Nv).
  assert (E4 : beqb (a ++ v ++ b) [dquote; dquote] = false).
  { apply beqb_neq. intros X. destruct a as [|c a].
    - cbn [app] in X. destruct Hv as [->|(s & N & ->)]; [discriminate|]. cbn [app] in X. injection X as X. destruct s as [|c s]; [congruence|]. injection X as _ X. destruct s; discriminate.
    - cbn [app] in X. injection X as -> _. inversion Ha; subst. discriminate. }
  rewrite E1, E2, E3, E4. reflexivity.
Qed.
(** With blanks around it the empty string is an error. *)
Example C89_ex_blanks : time_unjson leap_evening (B " ""2024-02-29T12:00:00Z"" ") = (mkTime (days_of 2024 2 29 * 86400 + 43200) 0, true) /\
  time_unjson leap_evening (B " """"") = (zero_time, false) /\ time_unjson leap_evening (B """2024""x""") = (leap_evening, false).
Proof. repeat split. Qed.
Theorem C85_time_partial : forall old, time_unjson old (B "null") = (old, true).
Proof. reflexivity. Qed.
Example C89_ex_unquoted : time_unjson leap_evening (B "2024") = (leap_evening, false). Proof. reflexivity. Qed.
Example C89_ex : time_json leap_evening = Some ([dquote] ++ B "2024-02-29T23:59:59.120456789Z" ++ [dquote]). Proof. reflexivity. Qed.

(** ** C90: Value and Scan *)
Theorem C90_value_scan : forall t old, time_scan old (time_value t) = (t, true).
Proof.
  intros t old. unfold time_value. destruct (is_zero t) eqn:Z0; [|reflexivity].
  unfold is_zero in Z0. apply andb_true_iff in Z0 as [A Bz]. apply Z.eqb_eq in A, Bz. destruct t. cbn in *. subst. reflexivity.
Qed.
Theorem C90_null_iff_zero : forall t, time_value t = TNil <-> t = zero_time.
Proof.
  intros t. unfold time_value. destruct (is_zero t) eqn:Z0; split; intros H; try reflexivity; try discriminate; [|subst; discriminate].
  unfold is_zero in Z0. apply andb_true_iff in Z0 as [A Bz]. apply Z.eqb_eq in A, Bz. destruct t. cbn in *. subst. reflexivity.
Qed.
Example C90_ex : time_value leap_evening = TTime leap_evening. Proof. reflexivity. Qed.

(** ** C91: the accepted texts *)
Definition midnight (n : Z) : Z := n * 86400.
Lemma gregorian_days n y m d : gregorian n (y, m, d) -> days_of y m d = n /\ valid_day y m d.
Proof. intros G. apply gregorian_civil in G. pose proof (cal_all n) as C. rewrite <- G in C. tauto. Qed.
Theorem C91_date : forall n y m d, gregorian n (y, m, d) -> 0 <= y <= 9999 -> parse_time (date_text y m d) = mkTime (midnight n) 0.
Proof.
  intros n y m d G Hy. destruct (gregorian_days n y m d G) as [E V].
  change (parse_time (date_text y m d)) with (trunc_ms (match parse_dateonly (date_text y m d) with Some t => t | None => zero_time end)).
  unfold parse_dateonly. rewrite <- (app_nil_r (date_text y m d)), get_date_text by assumption. cbn [finished]. rewrite E. rewrite trunc_eq by (split; reflexivity || discriminate). reflexivity.
Qed.
Theorem C91_datetime : forall n y m d h mi s, gregorian n (y, m, d) -> 0 <= y <= 9999 -> 0 <= h <= 23 -> 0 <= mi <= 59 -> 0 <= s <= 59 ->
  parse_time (date_text y m d ++ B " " ++ clock_text h mi s) = mkTime (midnight n + h * 3600 + mi * 60 + s) 0.
Proof.
  intros n y m d h mi s G Hy Hh Hm Hs. destruct (gregorian_days n y m d G) as [E V]. set (x := date_text y m d ++ B " " ++ clock_text h mi s).
  change (parse_time x) with (trunc_ms (match parse_datetime x with Some t => t | None => zero_time end)).
  assert (P : parse_datetime x = Some (mkTime (n * 86400 + (h * 3600 + mi * 60 + s)) 0)).
  { unfold parse_datetime, x. rewrite get_date_text by assumption. unfold clock_text at 1, two at 1. cbn [app]. rewrite skip_digit by (rewrite dec_digit_char by (split; [apply Z.div_pos|apply Z.div_lt_upper_bound]; lia); discriminate). match goal with |- context [get_clock ?x] => change x with (clock_text h mi s) end. rewrite <- (app_nil_r (clock_text h mi s)), get_clock_text by assumption. cbn [get_frac finished]. rewrite E. reflexivity. }
  rewrite P, trunc_eq by (split; reflexivity || discriminate). cbn [t_sec t_nsec]. unfold midnight. f_equal. lia.
Qed.
(** RFC 3339 with a zone offset, converted to UTC. *)
Definition offset_text (east : bool) (h m : Z) : bytes := (if east then B "+" else B "-") ++ two h ++ B ":" ++ two m.
Definition offset_sec (east : bool) (h m : Z) : Z := if east then (h * 60 + m) * 60 else - ((h * 60 + m) * 60).
Theorem C91_rfc3339 : forall n y m d h mi s ms east oh om, gregorian n (y, m, d) -> 0 <= y <= 9999 -> 0 <= h <= 23 -> 0 <= mi <= 59 -> 0 <= s <= 59 ->
  0 <= ms < 1000 -> 0 <= oh <= 23 -> 0 <= om <= 59 ->
  parse_time (date_text y m d ++ B "T" ++ clock_text h mi s ++ ms_text ms ++ offset_text east oh om) =
  mkTime (midnight n + h * 3600 + mi * 60 + s - offset_sec east oh om) (ms * 1000000).
Proof.
  intros n y m d h mi s ms east oh om G Hy Hh Hm Hs Hms Hoh Hom. destruct (gregorian_days n y m d G) as [E V].
  set (x := date_text y m d ++ B "T" ++ clock_text h mi s ++ ms_text ms ++ offset_text east oh om).
  assert (P : parse_rfc3339 x = Some (mkTime (n * 86400 + (h * 3600 + mi * 60 + s) - offset_sec east oh om) (ms * 1000000))).
  { unfold parse_rfc3339, x. rewrite get_date_text by assumption. rewrite lit_T, get_clock_text by assumption.
    assert (Ems : ms * 1000000 / 1000000 = ms) by (apply Z.div_mul; lia). rewrite <- Ems at 1. rewrite <- fmt_frac_ms by lia.
    assert (Z1 : forall c r, dec_digit c = None -> c <> ascii_of_nat 46 -> c <> ascii_of_nat 44 -> get_frac (fmt_frac 3 (ms * 1000000) ++ c :: r) = (ms * 1000000, c :: r)).
    { intros c r Hc N1 N2. rewrite frac_back by (try lia; assumption). change (10 ^ (9 - Z.of_nat 3)) with 1000000. rewrite Z.mod_mul, Z.sub_0_r by lia. reflexivity. }
    destruct east; unfold offset_text, offset_sec.
    - change (B "+" ++ ?u) with (ascii_of_nat 43 :: u). rewrite Z1 by (reflexivity || discriminate). cbn [get_zone].
      destruct (ascii_dec (ascii_of_nat 43) (ascii_of_nat 90)) as [X|_]; [discriminate|]. rewrite getnum_two, ranged_in, lit_colon by lia.
      rewrite <- (app_nil_r (two om)), getnum_two, ranged_in by lia. cbn [finished]. rewrite E. reflexivity.
    - change (B "-" ++ ?u) with (ascii_of_nat 45 :: u) at 1. rewrite Z1 by (reflexivity || discriminate). cbn [get_zone].
      destruct (ascii_dec (ascii_of_nat 45) (ascii_of_nat 90)) as [X|_]; [discriminate|]. rewrite getnum_two, ranged_in, lit_colon by lia.
      rewrite <- (app_nil_r (two om)), getnum_two, ranged_in by lia. cbn [finished]. rewrite E. reflexivity. }
  rewrite parse_time_long.
  2: { unfold x. rewrite !app_length. change (length (date_text y m d)) with 10%nat. change (length (clock_text h mi s)) with 8%nat. assert (O : length (offset_text east oh om) = 6%nat) by (destruct east; reflexivity). rewrite O. change (length (B "T")) with 1%nat. lia. }
  rewrite P, trunc_eq by (split; cbn [t_nsec]; lia). cbn [t_sec t_nsec]. rewrite Z.mod_mul, Z.sub_0_r by lia. unfold midnight. f_equal. lia.
Qed.
Example C91_ex_hyp : gregorian (days_of 2024 2 29) (2024, 2, 29).
Proof. exact (civil_gregorian (days_of 2024 2 29)). Qed.
Example C91_ex : parse_time (B "2024-03-01T01:29:59.12+01:30") = mkTime (t_sec leap_evening) 120000000. Proof. reflexivity. Qed.

(** ** C92: what String prints *)
Theorem C92_string : forall t n y m d h mi s, time_ok t -> t <> zero_time -> gregorian n (y, m, d) -> 0 <= y <= 9999 ->
  0 <= h <= 23 -> 0 <= mi <= 59 -> 0 <= s <= 59 -> t_sec t = midnight n + h * 3600 + mi * 60 + s ->
  time_string t = date_text y m d ++ B "T" ++ clock_text h mi s ++ ms_text (t_nsec t / 1000000) ++ B "Z".
Proof.
  intros t n y m d h mi s H N G Hy Hh Hm Hs Et. unfold time_string. destruct (is_zero t) eqn:Z0.
  - exfalso. apply N. unfold is_zero in Z0. apply andb_true_iff in Z0 as [A Bz]. apply Z.eqb_eq in A, Bz. destruct t as [a b]. cbn in A, Bz. rewrite A, Bz. reflexivity.
  - unfold time_format. unfold midnight in Et. set (c := h * 3600 + mi * 60 + s).
    assert (D : t_sec t / 86400 = n) by (symmetry; apply Z.div_unique_pos with c; unfold c; lia).
    assert (M : t_sec t mod 86400 = c) by (symmetry; apply Z.mod_unique_pos with n; unfold c; lia).
    rewrite D, M. pose proof (fmt_date_text n) as F. rewrite <- (gregorian_civil n _ G) in F. rewrite F by exact Hy.
    rewrite fmt_clock_text by (unfold c; lia). rewrite fmt_frac_ms by exact H.
    assert (C1 : c / 3600 = h) by (symmetry; apply Z.div_unique_pos with (mi * 60 + s); unfold c; lia).
    assert (C2 : c / 60 = h * 60 + mi) by (symmetry; apply Z.div_unique_pos with s; unfold c; lia).
    assert (C3 : c mod 60 = s) by (symmetry; apply Z.mod_unique_pos with (h * 60 + mi); unfold c; lia).
    assert (C4 : (h * 60 + mi) mod 60 = mi) by (symmetry; apply Z.mod_unique_pos with h; lia).
    rewrite C1, C2, C3, C4. reflexivity.
Qed.
(** Every instant has exactly one calendar day, so C92_string covers it. *)
Theorem C92_every_day : forall n, exists y m d, gregorian n (y, m, d) /\ valid_day y m d /\ forall x, gregorian n x -> x = (y, m, d).
Proof.
  intros n. pose proof (civil_gregorian n) as G. pose proof (cal_all n) as C. destruct (civil n) as [[y m] d] eqn:E. exists y, m, d. destruct C as (_ & V & _).
  split; [exact G|]. split; [exact V|]. intros x Hx. apply gregorian_civil in Hx. congruence.
Qed.
Theorem C92_string_injective : forall a b, time_ok a -> time_ok b -> 0 <= year_of a <= 9999 -> 0 <= year_of b <= 9999 ->
  time_string a = time_string b -> time_utc a = time_utc b.
Proof. intros a b Ha Hb Ya Yb E. rewrite <- (C51_string_parse a Ha Ya), <- (C51_string_parse b Hb Yb), E. reflexivity. Qed.

(** ** Exact statements of what holds of refuted properties *)
(** C52: Scan of a text never fails, whatever the text; it fails exactly for
    values that are no text, time or NULL, and then keeps the destination. *)
Theorem C52_exact_partial : forall old x, (snd (time_scan old x) = false <-> x = TOther) /\ (snd (time_scan old x) = false -> fst (time_scan old x) = old) /\
  (forall s, x = TStr s -> fst (time_scan old x) = parse_time s).
Proof.
  intros old x. destruct x; cbn; repeat split; try discriminate; try reflexivity; intros s' E; injection E as ->; reflexivity.
Qed.

(** ** Assumptions *)
Print Assumptions C37_time_null_partial.
Print Assumptions C50_unix_milli.
Print Assumptions C50_truncate.
Print Assumptions C50_never_forward.
Print Assumptions C51_string_parse.
Print Assumptions C51_zero.
Print Assumptions C51_far_years.
Print Assumptions C52_scan_refuted.
Print Assumptions C52_scan_partial.
Print Assumptions C89_json.
Print Assumptions C89_json_error.
Print Assumptions C89_empty.
Print Assumptions C89_unquoted.
Print Assumptions C89_blanks.
Print Assumptions C85_time_partial.
Print Assumptions C90_value_scan.
Print Assumptions C90_null_iff_zero.
Print Assumptions C91_date.
Print Assumptions C91_datetime.
Print Assumptions C91_rfc3339.
Print Assumptions C92_string.
Print Assumptions C92_every_day.
Print Assumptions C92_string_injective.
Print Assumptions C52_exact_partial.
