From Verif Require Import GoBase GoBaseFacts IdModel IdSpec IdProofs FloatModel FloatSpec FloatProofs TypeModel TypeSpec TypeProofs ParamModel TimeModel TimeSpec TimeCal TimeProofs TimeZone JsonModel JsonSpec JsonProofs AnySpec AnyProofs RecordModel RecordSpec.
From Verif Require TypeProps FloatProps TimeProps MiscProps.
Open Scope Z_scope.

(** ** Plain text *)
Lemma utf8_size_ascii c r : byte c < 128 -> utf8_size (c :: r) = 1%nat.
Proof. intros H. unfold utf8_size. pose proof (byte_range c). unfold in_rng. cbv zeta. destruct (Z.ltb_spec (byte c) 128); [reflexivity|lia]. Qed.
Lemma esc_simple c : simple_char c -> esc c = [c].
Proof.
  intros (H1 & H2 & H3 & H4 & H5 & H6). unfold esc. cbv zeta.
  destruct (Z.eqb_spec (byte c) 34); [lia|]. destruct (Z.eqb_spec (byte c) 92); [lia|]. destruct (Z.eqb_spec (byte c) 8); [lia|]. destruct (Z.eqb_spec (byte c) 12); [lia|].
  destruct (Z.eqb_spec (byte c) 10); [lia|]. destruct (Z.eqb_spec (byte c) 13); [lia|]. destruct (Z.eqb_spec (byte c) 9); [lia|]. destruct (Z.ltb_spec (byte c) 32); [lia|].
  destruct (Z.eqb_spec (byte c) 60); [lia|]. destruct (Z.eqb_spec (byte c) 62); [lia|]. destruct (Z.eqb_spec (byte c) 38); [lia|]. reflexivity.
Qed.
Lemma enc_simple s : Forall simple_char s -> enc_chars s = s.
Proof.
  unfold enc_chars. induction 1 as [|c s H _ IH]; [reflexivity|]. cbn [length runes]. rewrite utf8_size_ascii by (destruct H; lia). cbn [firstn skipn flat_map enc_rune]. rewrite (esc_simple c H). cbn [app]. f_equal. exact IH.
Qed.
Lemma simple_utf8 s : Forall simple_char s -> utf8_text s.
Proof.
  intros H. exists (map byte s). split.
  - apply Forall_map. eapply Forall_impl; [|exact H]. intros c (Hc & _). left. lia.
  - induction H as [|c l (Hc & _) _ IH]; [reflexivity|]. cbn [map flat_map]. rewrite <- IH. unfold utf8_enc. destruct (Z.ltb_spec (byte c) 128); [|lia]. rewrite zb_byte. reflexivity.
Qed.
Lemma simple_string s : Forall simple_char s -> json_text (JStr s) = [dquote] ++ s ++ [dquote] /\ json_repaired (JStr s) = JStr s.
Proof. intros H. cbn [json_text json_repaired]. unfold enc_string. rewrite enc_simple by exact H. rewrite repaired_text by (apply simple_utf8, H). split; reflexivity. Qed.
Lemma digit_simple c : dec_digit c <> None -> simple_char c.
Proof.
  intros H. assert (E : forallb (fun c => match dec_digit c with None => true | Some _ => (32 <=? byte c) && (byte c <? 128) && negb (byte c =? 34) && negb (byte c =? 92) && negb (byte c =? 60) && negb (byte c =? 62) && negb (byte c =? 38) end) (map ascii_of_nat (seq 0 256)) = true) by (vm_compute; reflexivity).
  rewrite forallb_forall in E. specialize (E c). destruct (dec_digit c) as [d|]; [|congruence].
  assert (I : In c (map ascii_of_nat (seq 0 256))). { apply in_map_iff. exists (nat_of_ascii c). split; [apply ascii_nat_embedding|]. apply in_seq. pose proof (nat_ascii_bounded c). lia. }
  specialize (E I). rewrite !andb_true_iff, !negb_true_iff, !Z.eqb_neq, Z.leb_le, Z.ltb_lt in E. unfold simple_char. tauto.
Qed.
Lemma pad_simple w n : 0 <= n -> Forall simple_char (pad w n).
Proof. intros H. eapply Forall_impl; [|apply pad_digits, H]. exact digit_simple. Qed.
Lemma lit_simple c : simple_char c -> Forall simple_char [c]. Proof. auto. Qed.
Lemma format_simple k t : time_ok t -> 0 <= year_of t <= 9999 -> Forall simple_char (time_format k t).
Proof.
  assert (P : forall c, In c (B "-:TZ.") -> simple_char c).
  { intros c Hc. cbn in Hc. repeat destruct Hc as [<-|Hc]; try contradiction; (split; [split; vm_compute; congruence|repeat split; vm_compute; congruence]). }
  intros [Ht _] Hy. unfold time_format, fmt_date, year_of in *. pose proof (cal_all (t_sec t / 86400)) as C. destruct (civil (t_sec t / 86400)) as [[y m] dd]. destruct C as (_ & V & _).
  destruct V as [Vm Vd]. pose proof (Z.mod_pos_bound (t_sec t) 86400 ltac:(lia)) as HS. destruct (clock_value _ HS) as (_ & V1 & V2 & V3).
  unfold fmt_clock, fmt_year. destruct (y <? 0) eqn:E; [lia|].
  rewrite !Forall_app. repeat split; try (apply pad_simple; lia); try (apply lit_simple, P; cbn; tauto).
  unfold fmt_frac. cbv zeta. match goal with |- Forall _ (if is_empty ?x then _ else _) => assert (F : Forall simple_char x); [|destruct (is_empty x); [constructor|constructor; [apply P; cbn; tauto|exact F]]] end.
  apply Forall_rev. apply Forall_forall. intros c Hc. apply strip_incl in Hc. apply in_rev in Hc. pose proof (pad_simple 9 (t_nsec t) Ht) as Q. rewrite Forall_forall in Q. apply Q.
  rewrite <- (firstn_skipn k (pad 9 (t_nsec t))). apply in_app_iff. left. exact Hc.
Qed.

(** ** Numbers *)
Lemma scan_uint n : 0 <= n -> json_ok (JNum (fmt_uint 10 n)).
Proof. intros H. constructor. pose proof (scan_num_int n) as X. unfold fmt_int in X. destruct (Z.ltb_spec n 0); [lia|]. exact X. Qed.
Lemma scan_int n : json_ok (JNum (fmt_int 10 n)).
Proof. constructor. apply scan_num_int. Qed.
Lemma marshaled_ok j : json_ok j -> marshaled (json_text j) = Some (json_text j).
Proof. intros H. unfold marshaled. rewrite (parse_text j H). reflexivity. Qed.
Lemma spec_digit c : IdSpec.is_digit c -> JsonModel.is_digit c = true.
Proof. intros [H1 H2]. unfold JsonModel.is_digit. apply in_rng_spec. unfold byte. revert H1 H2. clear. intros. lia. Qed.
Lemma scan_fraction (sg : bool) n ds : 0 <= n -> Forall (fun c => JsonModel.is_digit c = true) ds -> ds <> [] ->
  json_ok (JNum ((if sg then B "-" else []) ++ fmt_uint 10 n ++ B "." ++ ds)).
Proof.
  intros N DS NE. constructor.
  assert (SP : forall s, Forall (fun c => JsonModel.is_digit c = true) s -> span_digits (s ++ B "." ++ ds) = (s, B "." ++ ds)).
  { induction s as [|d s IHs]; intros F; [reflexivity|]. inversion F as [|? ? F1 F2]; subst. cbn [app span_digits]. rewrite F1, (IHs F2). reflexivity. }
  assert (X : forall p, match num_int (fmt_uint 10 n ++ B "." ++ ds) with
    | Some (i, r1) => match num_frac r1 with Some (fr, r2) => match num_exp r2 with Some (e, r3) => Some (p ++ i ++ fr ++ e, r3) | None => None end | None => None end
    | None => None end = Some (p ++ fmt_uint 10 n ++ B "." ++ ds, [])).
  { intros p. assert (I : num_int (fmt_uint 10 n ++ B "." ++ ds) = Some (fmt_uint 10 n, B "." ++ ds)).
    { destruct (Z_lt_le_dec n 10) as [L|L].
      - rewrite fmt_uint_small by lia. cbn [num_int app]. rewrite digit_char_byte by lia. destruct (Z.eqb_spec (48 + n) 48) as [E|E]; [reflexivity|].
        pose proof (SP [digit_char n]) as Y. cbn [app] in Y. rewrite Y; [reflexivity|]. constructor; [|constructor]. unfold JsonModel.is_digit. apply in_rng_spec. rewrite digit_char_byte by lia. lia.
      - pose proof (fmt_uint_digits n N) as D. pose proof (fmt_uint_head n L) as Hd. destruct (fmt_uint 10 n) as [|c r] eqn:E; [exfalso; apply (fmt_uint_nonempty 10 n); lia || exact E|].
        cbn [num_int app]. destruct (Z.eqb_spec (byte c) 48) as [X|X]; [destruct (Hd c r eq_refl X)|].
        pose proof (SP _ D) as Y. cbn [app] in Y. cbn [app]. rewrite Y. reflexivity. }
    rewrite I. change (B "." ++ ds) with (ascii_of_nat 46 :: ds). cbn [num_frac]. change (byte (ascii_of_nat 46) =? 46) with true. cbv iota. rewrite (span_all _ DS). destruct ds as [|d ds]; [congruence|]. cbn [num_exp app]. rewrite app_nil_r. reflexivity. }
  unfold scan_num. destruct sg.
  - cbn [app B list_ascii_of_string]. change (byte (Ascii true false true true false true false false) =? 45) with true. cbv iota. apply (X (B "-")).
  - specialize (X []). pose proof (fmt_uint_digits n N) as D. cbn [app].
    destruct (fmt_uint 10 n) as [|c r] eqn:E; [exfalso; apply (fmt_uint_nonempty 10 n); lia || exact E|]. inversion D as [|? ? D1 _]; subst. apply in_rng_spec in D1. cbn [app] in *. destruct (Z.eqb_spec (byte c) 45); [lia|]. exact X.
Qed.
Lemma float_ok b : finite b -> json_ok (JNum (float_json b)).
Proof.
  intros H. pose proof (proj1 (finite_abs b) H) as [P HI]. pose proof (f_micros_nonneg b H) as N0. unfold float_json, float_string. apply Z.ltb_lt in HI. rewrite HI. unfold micros_text.
  set (n := f_micros b) in *. assert (D : 0 <= n / 1000000) by (apply Z.div_pos; lia). pose proof (Z.mod_pos_bound n 1000000 ltac:(lia)) as M.
  apply (scan_fraction (f_neg b) (n / 1000000) (pad6 (n mod 1000000)) D).
  - eapply Forall_impl; [|apply pad6_digits; lia]. exact spec_digit.
  - intros E. pose proof (pad6_len (n mod 1000000) M) as L. rewrite E in L. discriminate L.
Qed.
Lemma not_finite_text b : pattern b -> ~ finite b -> marshaled (float_json b) = None.
Proof.
  intros P N. unfold float_json, float_string. assert (G : (f_abs b <? inf_bits) = false) by (apply Z.ltb_ge; destruct (Z_lt_le_dec (f_abs b) inf_bits) as [L|L]; [exfalso; apply N, finite_abs; auto|exact L]).
  rewrite G. destruct (f_abs b =? inf_bits); [destruct (f_neg b)|]; reflexivity.
Qed.

(** ** The parts of a text *)
Lemma next_text v rest : json_ok v -> closes rest -> next_value (json_text v ++ rest) = Some (json_repaired v, json_text v, rest).
Proof.
  intros O C. unfold next_value. cbv zeta. rewrite (text_skip v rest O). rewrite (jval_text v O _ rest C) by (rewrite app_length; lia).
  rewrite app_length. replace (length (json_text v) + length rest - length rest)%nat with (length (json_text v)) by lia. rewrite firstn_app, Nat.sub_diag, firstn_all, app_nil_r. reflexivity.
Qed.
Lemma elements_text l : Forall json_ok l -> l <> [] -> forall f rest, (length l <= f)%nat ->
  elements f (join (B ",") (map json_text l) ++ B "]" ++ rest) = map (fun j => (json_repaired j, json_text j)) l.
Proof.
  induction 1 as [|v l O _ IH]; intros N f rest L; [congruence|]. destruct f as [|f]; [cbn [length] in L; lia|]. cbn [length] in L. cbn [elements].
  destruct l as [|w l].
  - cbn [map join] in *. rewrite next_text by (cbn; auto). reflexivity.
  - assert (Nn : w :: l <> []) by discriminate. revert IH L. generalize (w :: l) Nn. clear w l Nn N. intros l N IH L.
    assert (J : join (B ",") (map json_text (v :: l)) = json_text v ++ B "," ++ join (B ",") (map json_text l)) by (cbn [map]; apply join_cons; destruct l; [congruence|discriminate]).
    rewrite J. rewrite <- !app_assoc. rewrite next_text by (cbn; auto).
    change (skip_ws (B "," ++ join (B ",") (map json_text l) ++ B "]" ++ rest)) with (ascii_of_nat 44 :: join (B ",") (map json_text l) ++ B "]" ++ rest). cbv iota.
    change (byte (ascii_of_nat 44) =? 44) with true. cbv iota. rewrite (IH N f rest) by lia. reflexivity.
Qed.
Lemma join_length (l : list bytes) : Forall (fun t => (1 <= length t)%nat) l -> (length l <= length (join (B ",") l))%nat.
Proof.
  induction 1 as [|t l H _ IH]; [cbn; lia|]. destruct l as [|u l]; [cbn [join length] in *; lia|]. rewrite join_cons by discriminate. rewrite !app_length. change (length (B ",")) with 1%nat. cbn [length] in *. lia.
Qed.
Lemma array_parts_text l : Forall json_ok l -> array_parts (json_text (JArr l)) = map (fun j => (json_repaired j, json_text j)) l.
Proof.
  intros O. destruct l as [|v l]; [reflexivity|]. inversion O as [|? ? Ov Ol]; subst. destruct (text_head v Ov) as (c & r & E & W & X & _).
  pose proof (elements_text (v :: l) O ltac:(discriminate)) as EL.
  assert (LL : (length (v :: l) <= length (join (B ",") (map json_text (v :: l))))%nat).
  { rewrite <- (map_length json_text (v :: l)) at 1. apply join_length. apply Forall_map. eapply Forall_impl; [|exact O]. exact text_length. }
  assert (HW : exists r', join (B ",") (map json_text (v :: l)) = c :: r').
  { destruct l as [|w l]; [exists r; cbn [map join]; exact E|]. cbn [map]. rewrite join_cons by discriminate. rewrite E. eexists. reflexivity. }
  destruct HW as [r' HW]. cbn [json_text]. rewrite HW in *. cbn [app B list_ascii_of_string]. cbn [array_parts skip_ws]. rewrite W. destruct (Z.eqb_spec (byte c) 93); [congruence|].
  specialize (EL (length (c :: r' ++ ["]"%char])) [] ltac:(cbn [length] in *; rewrite app_length; lia)). cbn [app B list_ascii_of_string] in EL. exact EL.
Qed.
Lemma fields_text l : Forall (fun kv => json_ok (snd kv)) l -> l <> [] -> forall f rest, (length l <= f)%nat ->
  fields_of f (join (B ",") (map member_text l) ++ B "}" ++ rest) = map (fun kv => (repaired (fst kv), (json_repaired (snd kv), json_text (snd kv)))) l.
Proof.
  assert (M : forall k v t f, json_ok v -> closes t ->
    fields_of (S f) (member_text (k, v) ++ t) = (repaired k, (json_repaired v, json_text v)) :: match skip_ws t with c :: r3 => if byte c =? 44 then fields_of f r3 else [] | [] => [] end).
  { intros k v t f Ov Ht. unfold member_text. cbn [fst snd]. unfold enc_string. rewrite <- !app_assoc. cbn [app]. cbn [fields_of]. change (skip_ws (dquote :: enc_chars k ++ dquote :: B ":" ++ json_text v ++ t)) with (dquote :: enc_chars k ++ dquote :: B ":" ++ json_text v ++ t). cbv iota.
    rewrite (unquote_string k (B ":" ++ json_text v ++ t)). cbv iota beta.
    change (skip_ws (B ":" ++ json_text v ++ t)) with (ascii_of_nat 58 :: json_text v ++ t). cbv iota. rewrite (next_text v t Ov Ht). reflexivity. }
  induction 1 as [|[k v] l Ov _ IH]; intros N f rest L; [congruence|]. cbn [snd] in *. destruct f as [|f]; [cbn [length] in L; lia|]. cbn [length] in L.
  destruct l as [|w l].
  - cbn [map join fst snd] in *. rewrite M; [reflexivity|exact Ov|cbn; auto].
  - assert (Nn : w :: l <> []) by discriminate. revert IH L. generalize (w :: l) Nn. clear w l Nn N. intros l N IH L.
    assert (J : join (B ",") (map member_text ((k, v) :: l)) = member_text (k, v) ++ B "," ++ join (B ",") (map member_text l)) by (cbn [map]; apply join_cons; destruct l; [congruence|discriminate]).
    rewrite J. rewrite <- !app_assoc. rewrite M; [|exact Ov|cbn; auto].
    change (skip_ws (B "," ++ join (B ",") (map member_text l) ++ B "}" ++ rest)) with (ascii_of_nat 44 :: join (B ",") (map member_text l) ++ B "}" ++ rest). cbv iota.
    change (byte (ascii_of_nat 44) =? 44) with true. cbv iota. rewrite (IH N f rest) by lia. reflexivity.
Qed.
Lemma object_parts_text l : Forall (fun kv => json_ok (snd kv)) l ->
  object_parts (json_text (JObj l)) = map (fun kv => (repaired (fst kv), (json_repaired (snd kv), json_text (snd kv)))) l.
Proof.
  intros O. destruct l as [|v l]; [reflexivity|].
  pose proof (fields_text (v :: l) O ltac:(discriminate)) as EL.
  assert (LL : (length (v :: l) <= length (join (B ",") (map member_text (v :: l))))%nat).
  { rewrite <- (map_length member_text (v :: l)) at 1. apply join_length. apply Forall_map, Forall_forall. intros x _. unfold member_text, enc_string. rewrite !app_length. cbn. lia. }
  assert (HW : exists r', join (B ",") (map member_text (v :: l)) = dquote :: r').
  { destruct l as [|w l]; [eexists; reflexivity|]. cbn [map]. rewrite join_cons by discriminate. eexists. reflexivity. }
  destruct HW as [r' HW]. change (json_text (JObj (v :: l))) with (B "{" ++ join (B ",") (map member_text (v :: l)) ++ B "}"). rewrite HW in *. cbn [app B list_ascii_of_string]. cbn [object_parts].
  change (skip_ws (dquote :: r' ++ ["}"%char])) with (dquote :: r' ++ ["}"%char]). cbv iota. change (byte dquote =? 125) with false. cbv iota.
  specialize (EL (length (dquote :: r' ++ ["}"%char])) [] ltac:(cbn [length] in *; rewrite app_length; lia)). cbn [app B list_ascii_of_string] in EL. exact EL.
Qed.

(** ** One value *)
Lemma all_some_map {A C} (f : A -> option C) (g : A -> C) l : (forall x, In x l -> f x = Some (g x)) -> all_some (map f l) = Some (map g l).
Proof. induction l as [|x l IH]; intros H; [reflexivity|]. cbn [map all_some fold_right]. rewrite (H x (or_introl eq_refl)). fold (all_some (map f l)). rewrite IH by (intros y Hy; apply H; right; exact Hy). reflexivity. Qed.
Lemma into_array_text {A} (dec : A -> json -> bytes -> A * outcome) zero (tree : A -> json) (R : A -> A -> Prop) (l : list A) :
  (forall x old, In x l -> exists y, dec old (json_repaired (tree x)) (json_text (tree x)) = (y, DOk) /\ R x y) ->
  exists l', into_array dec zero [] (map (fun j => (json_repaired j, json_text j)) (map tree l)) = (l', length l, DOk) /\ Forall2 R l l' .
Proof.
  induction l as [|x l IH]; intros H; [exists []; split; [reflexivity|constructor]|]. cbn [map into_array hd tl]. destruct (H x zero (or_introl eq_refl)) as (y & E & Ry). rewrite E.
  destruct IH as (l' & El & Rl); [intros z old Hz; apply H; right; exact Hz|]. rewrite El. exists (y :: l'). split; [reflexivity|constructor; assumption].
Qed.
Lemma f2_length {A C} (R : A -> C -> Prop) l l' : Forall2 R l l' -> length l = length l'.
Proof. induction 1; cbn; congruence. Qed.
Lemma into_list_text {A} (dec : A -> json -> bytes -> A * outcome) zero (enc : A -> option bytes) (tree : A -> json) (R : A -> A -> Prop) (s : slice A) :
  (forall x, In x (s_list s) -> json_ok (tree x) /\ enc x = Some (json_text (tree x)) /\ forall old, exists y, dec old (json_repaired (tree x)) (json_text (tree x)) = (y, DOk) /\ R x y) ->
  exists j, list_text enc s = Some (json_text j) /\ json_ok j /\ exists s', into_list dec zero None (json_repaired j) (json_text j) = (s', DOk) /\ same_list R s s'.
Proof.
  intros H. destruct s as [[b n]|].
  - set (l := s_list (Some (b, n))) in *. exists (JArr (map tree l)). split; [|split].
    + unfold list_text. fold l. rewrite (all_some_map enc (fun x => json_text (tree x))) by (intros x Hx; apply H, Hx). cbn [json_text]. rewrite map_map. reflexivity.
    + constructor. apply Forall_map, Forall_forall. intros x Hx. apply H, Hx.
    + cbn [json_repaired]. unfold into_list. rewrite array_parts_text by (apply Forall_map, Forall_forall; intros x Hx; apply H, Hx).
      destruct (into_array_text dec zero tree R l) as (l' & E & F); [intros x old Hx; apply H, Hx|]. rewrite E.
      eexists. split; [reflexivity|]. unfold same_list. pose proof (f2_length _ _ _ F) as FL. split; [split; [discriminate|destruct (is_empty _); discriminate]|]. fold l.
      destruct l as [|x l0]; [inversion F; constructor|]. cbn [map is_empty]. unfold s_list. rewrite FL, firstn_all. exact F.
  - exists JNull. split; [reflexivity|]. split; [constructor|]. exists None. split; [reflexivity|]. split; [tauto|constructor].
Qed.
Lemma id_trip c old : uint64 (id_val c) -> exists d, dec_id old (JNum (id_json c)) (id_json c) = (d, DOk) /\ id_val d = id_val c.
Proof.
  intros H. unfold dec_id. unfold id_json. destruct (unjson_digits old (id_val c) _ _ H (trim_none _ (fmt_unquoted (id_val c) (proj1 H))) eq_refl) as (HA & HB & _).
  destruct (id_unjson old (fmt_uint 10 (id_val c))) as [d ok]. cbn [fst snd] in *. exists d. rewrite HB. split; [reflexivity|exact HA].
Qed.
Lemma trim_blank_quoted s : trim json_blanks ([dquote] ++ s ++ [dquote]) = [dquote] ++ s ++ [dquote].
Proof. apply TimeProps.trim_quoted. Qed.
Lemma time_trip z old : time_ok (zt z) -> zt z = zero_time \/ 0 <= year_of (zt z) <= 9999 ->
  exists s, zx_json z = Some ([dquote] ++ s ++ [dquote]) /\ Forall simple_char s /\ exists w, zx_unjson old ([dquote] ++ s ++ [dquote]) = (w, true) /\ zt w = zt z /\ zo w = None.
Proof.
  intros Ht Hy. destruct (is_zero (zt z)) eqn:Z0.
  - exists []. rewrite zx_json_same. unfold time_json. rewrite Z0. split; [reflexivity|]. split; [constructor|]. exists zzero. split; [reflexivity|]. split; [|reflexivity].
    unfold is_zero in Z0. apply andb_true_iff in Z0 as [A Bz]. apply Z.eqb_eq in A, Bz. destruct (zt z) as [a b]. cbn in A, Bz. subst. reflexivity.
  - assert (Y : 0 <= year_of (zt z) <= 9999). { destruct Hy as [E|Y]; [rewrite E in Z0; discriminate Z0|exact Y]. }
    exists (time_format 9 (zt z)). rewrite zx_json_same. unfold time_json. rewrite Z0.
    destruct ((0 <=? year_of (zt z)) && (year_of (zt z) <=? 9999)) eqn:E; [|exfalso; apply not_true_iff_false in E; apply E; rewrite andb_true_iff, !Z.leb_le; exact Y].
    split; [reflexivity|]. split; [apply format_simple; assumption|].
    destruct (TimeProps.C89_json (zt z) (zt old) Ht Y) as (data & Ed & Eu). unfold time_json in Ed. rewrite Z0, E in Ed. injection Ed as <-.
    pose proof (zx_unjson_same old ([dquote] ++ time_format 9 (zt z) ++ [dquote])) as S. destruct (zx_unjson old _) as [w ok] eqn:U.
    assert (S' : (zt w, ok) = (zt z, true)) by (rewrite <- S; exact Eu). injection S' as Sz ->. exists w. split; [reflexivity|]. split; [exact Sz|].
    destruct (MiscProps.C150_json_exact_partial old _ w U) as [[-> _]|[[_ X]|(s & X & Q)]]; [reflexivity| |].
    + exfalso. rewrite trim_blank_quoted in X. discriminate X.
    + rewrite trim_blank_quoted in X. cbn [app] in X. injection X as X. apply app_inj_tail in X as [<- _]. apply Q. unfold time_format.
      exists (fmt_date (t_sec (zt z) / 86400) ++ B "T" ++ fmt_clock (t_sec (zt z) mod 86400) ++ fmt_frac 9 (t_nsec (zt z))). rewrite <- !app_assoc. reflexivity.
Qed.
Lemma s_list_in {A} (P : A -> Prop) b n x : Forall P b -> In x (s_list (Some (b, n))) -> P x.
Proof. intros F I. cbn [s_list] in I. rewrite Forall_forall in F. apply F. rewrite <- (firstn_skipn n b). apply in_app_iff. left. exact I. Qed.
Lemma value_trip cd v : codec_ok cd -> holds v -> expressible v -> texts v ->
  exists j, value_text cd v = Some (json_text j) /\ json_ok j /\ exists w, into_value cd (zero_of v) (json_repaired j) (json_text j) = (w, DOk) /\ comes_back v w.
Proof.
  intros (C64 & C32 & CB) H X T. destruct v as [c|n|n|n|b|b|z|s|size n|b|b|b|s|l|l|l]; cbn [holds expressible texts zero_of value_text into_value] in *.
  - exists (JNum (id_json c)). assert (O : json_ok (JNum (id_json c))) by (apply scan_uint, H). pose proof (marshaled_ok _ O) as M. cbn [json_text json_repaired] in *. split; [exact M|]. split; [exact O|].
    destruct (id_trip c None H) as (d & E & V). unfold dec_id in E. exists (RId d). unfold stops. injection E as <- E. rewrite E. split; [reflexivity|exact V].
  - exists (JNum (id32_json n)). assert (O : json_ok (JNum (id32_json n))) by (apply scan_uint; destruct H; lia). pose proof (marshaled_ok _ O) as M. cbn [json_text json_repaired] in *. split; [exact M|]. split; [exact O|].
    rewrite (TypeProps.C43_id32_json n 0 _ H (or_introl eq_refl)). eexists. split; reflexivity.
  - exists (JNum (int64_json n)). assert (O : json_ok (JNum (int64_json n))) by apply scan_int. pose proof (marshaled_ok _ O) as M. cbn [json_text json_repaired] in *. split; [exact M|]. split; [exact O|].
    rewrite (TypeProps.C43_int64_json n 0 _ H (or_introl eq_refl)). eexists. split; reflexivity.
  - exists (JNum (int32_json n)). assert (O : json_ok (JNum (int32_json n))) by apply scan_int. pose proof (marshaled_ok _ O) as M. cbn [json_text json_repaired] in *. split; [exact M|]. split; [exact O|].
    rewrite (TypeProps.C43_int32_json n 0 _ H (or_introl eq_refl)). eexists. split; reflexivity.
  - exists (JNum (float_json b)). pose proof (float_ok b X) as O. pose proof (marshaled_ok _ O) as M. cbn [json_text json_repaired] in *. split; [exact M|]. split; [exact O|].
    destruct (FloatProps.C87_near_partial b 0 X) as (b' & n & E & F & S & D & _). rewrite E. exists (RFloat b'). split; [reflexivity|]. cbn [comes_back]. split; [exact F|]. split; [exact S|]. split; [exact D|].
    intros k K. rewrite (FloatProps.C87_multiples_partial b 0 k X K) in E. congruence.
  - exists (JBool b). split; [destruct b; reflexivity|]. split; [constructor|]. exists (RBool b). split; [destruct b; reflexivity|reflexivity].
  - destruct (time_trip z zzero H X) as (s & E & S & w & U & Z1 & Z2). exists (JStr s). destruct (simple_string s S) as [Q _]. rewrite Q, E. split; [|split; [constructor|]].
    + rewrite <- Q. apply marshaled_ok. constructor.
    + rewrite U. exists (RTime w). split; [reflexivity|split; assumption].
  - exists (JStr s). split; [reflexivity|]. split; [constructor|]. cbn [json_repaired]. rewrite (repaired_text s T). eexists. split; reflexivity.
  - exists (JNum (fmt_int 10 n)). split; [reflexivity|]. split; [apply scan_int|]. cbn [json_repaired into_int]. rewrite (parse_int_fmt size n) by tauto. eexists. split; reflexivity.
  - exists (JBool b). split; [reflexivity|]. split; [constructor|]. eexists. split; reflexivity.
  - destruct (C64 b X) as [O R]. exists (JNum (fmt64 cd b)). apply finite_abs in X as [_ L]. apply Z.ltb_lt in L. rewrite L. split; [reflexivity|]. split; [exact O|]. cbn [json_repaired into_float]. rewrite R. eexists. split; reflexivity.
  - destruct (C32 b (proj1 H) X) as [O R]. exists (JNum (fmt32 cd b)). apply finite_abs in X as [_ L]. apply Z.ltb_lt in L. rewrite L. split; [reflexivity|]. split; [exact O|]. cbn [json_repaired into_float]. rewrite R. eexists. split; reflexivity.
  - destruct s as [s|].
    + destruct (CB s) as [S D]. exists (JStr (b64e cd s)). destruct (simple_string _ S) as [Q R]. rewrite Q, R. split; [reflexivity|]. split; [constructor|]. cbn [into_bytes]. rewrite D. eexists. split; reflexivity.
    + exists JNull. split; [reflexivity|]. split; [constructor|]. eexists. split; reflexivity.
  - destruct (into_list_text dec_id None (fun c => marshaled (id_json c)) (fun c => JNum (id_json c)) (fun c d => id_val d = id_val c) l) as (j & E & O & s' & D & S).
    + intros c Hc. assert (U : uint64 (id_val c)). { destruct l as [[b n]|]; [|destruct Hc]. destruct H as [_ F]. exact (s_list_in _ _ _ _ F Hc). }
      assert (O : json_ok (JNum (id_json c))) by (apply scan_uint, U). split; [exact O|]. split; [exact (marshaled_ok _ O)|]. intros old. exact (id_trip c old U).
    + exists j. split; [exact E|]. split; [exact O|]. rewrite D. eexists. split; [reflexivity|exact S].
  - destruct (into_list_text dec_text [] (fun s => Some (enc_string s)) JStr eq l) as (j & E & O & s' & D & S).
    + intros s Hs. split; [constructor|]. split; [reflexivity|]. intros old. rewrite Forall_forall in T. cbn [json_repaired]. rewrite (repaired_text s (T s Hs)). exists s. split; reflexivity.
    + exists j. split; [exact E|]. split; [exact O|]. rewrite D. eexists. split; [reflexivity|exact S].
  - destruct (into_list_text (dec_int 64) 0 (fun n => Some (fmt_int 10 n)) (fun n => JNum (fmt_int 10 n)) eq l) as (j & E & O & s' & D & S).
    + intros n Hn. assert (U : int64 n). { destruct l as [[b k]|]; [|destruct Hn]. destruct H as [_ F]. exact (s_list_in _ _ _ _ F Hn). }
      split; [apply scan_int|]. split; [reflexivity|]. intros old. unfold dec_int. cbn [json_repaired into_int]. rewrite (parse_int_fmt 64 n); [|lia|exact U]. exists n. split; reflexivity.
    + exists j. split; [exact E|]. split; [exact O|]. rewrite D. eexists. split; [reflexivity|exact S].
Qed.

(** ** Rows *)
Lemma into_field_at cd p r1 n x r2 v t : Forall (fun f => p (fst f) = false) r1 -> p n = true ->
  into_field cd p (r1 ++ (n, x) :: r2) v t = Some (r1 ++ (n, fst (into_value cd x v t)) :: r2, snd (into_value cd x v t)).
Proof.
  induction 1 as [|[m y] r1 H _ IH]; intros P; cbn [app into_field fst] in *.
  - rewrite P. destruct (into_value cd x v t). reflexivity.
  - rewrite H, (IH P). reflexivity.
Qed.
Definition kept (cd : codec) (f : bytes * rval) : bool := exported cd (fst f) && negb (is_empty_value (snd f)).
Definition back_in (cd : codec) (f f' : bytes * rval) : Prop :=
  fst f = fst f' /\ (exported cd (fst f) = true -> comes_back_in_row (snd f) (snd f')) /\ (exported cd (fst f) = false -> snd f' = zero_of (snd f)).
Lemma empty_list {A} (l : list A) : is_empty l = true -> l = []. Proof. destruct l; [reflexivity|discriminate]. Qed.
Lemma zero_finite : finite 0. Proof. split; [split; [lia|reflexivity]|reflexivity]. Qed.
Lemma empty_back v : is_empty_value v = true -> comes_back_in_row v (zero_of v).
Proof.
  destruct v as [c|n|n|n|b|b|z|s|size n|b|b|b|s|l|l|l]; cbn [is_empty_value zero_of comes_back_in_row comes_back]; intros E; try discriminate; try (apply Z.eqb_eq in E; subst; reflexivity).
  - apply Z.eqb_eq in E. subst b. split; [apply zero_finite|]. split; [tauto|]. split; [rewrite Z.sub_diag; vm_compute; discriminate|]. reflexivity.
  - destruct b; [discriminate|reflexivity].
  - apply empty_list in E. subst. reflexivity.
  - destruct b; [discriminate|reflexivity].
  - destruct s as [[|c s]|]; [reflexivity|discriminate|reflexivity].
  - apply empty_list in E. split; [split; auto|]. rewrite E. constructor.
  - apply empty_list in E. split; [split; auto|]. rewrite E. constructor.
  - apply empty_list in E. split; [split; auto|]. rewrite E. constructor.
Qed.
Lemma elements_back_of {A} (R : A -> A -> Prop) (l l' : slice A) : is_empty (s_list l) = false -> same_list R l l' -> elements_back R l l'.
Proof.
  intros E [_ F]. split; [|exact F]. split; [intros X; rewrite X in E; discriminate|]. intros ->. cbn [s_list] in F. inversion F as [X|]; subst. rewrite <- X in E. discriminate.
Qed.
Lemma full_back v w : is_empty_value v = false -> comes_back v w -> comes_back_in_row v w.
Proof.
  intros E H. destruct v as [c|n|n|n|b|b|z|s|size n|b|b|b|s|l|l|l]; try exact H; cbn [is_empty_value] in E.
  - cbn [comes_back] in H. subst w. cbn [comes_back_in_row]. destruct s as [[|c s]|]; [discriminate|reflexivity|discriminate].
  - destruct w; try exact H. exact (elements_back_of _ _ _ E H).
  - destruct w; try exact H. exact (elements_back_of _ _ _ E H).
  - destruct w; try exact H. exact (elements_back_of _ _ _ E H).
Qed.
Lemma zero_row_names r : map fst (zero_row r) = map fst r.
Proof. unfold zero_row. rewrite map_map. reflexivity. Qed.
Lemma rows_back cd r : codec_ok cd -> Forall (fun f => utf8_text (fst f) /\ holds (snd f) /\ expressible (snd f) /\ texts (snd f)) r ->
  exists l, all_some (map (fun f => match value_text cd (snd f) with Some t => Some (enc_string (fst f) ++ B ":" ++ t) | None => None end) (filter (kept cd) r)) = Some (map member_text l) /\
    Forall (fun kv => json_ok (snd kv)) l /\
    forall d, NoDup (map fst (d ++ r)) -> exists r', into_row cd (d ++ zero_row r) (map (fun kv => (repaired (fst kv), (json_repaired (snd kv), json_text (snd kv)))) l) = (d ++ r', DOk) /\ Forall2 (back_in cd) r r'.
Proof.
  intros C. induction 1 as [|[n v] r (Un & Hv & Xv & Tv) _ IH].
  - exists []. split; [reflexivity|]. split; [constructor|]. intros d _. exists []. split; [reflexivity|constructor].
  - destruct IH as (l & E & O & D). cbn [fst snd filter] in *. unfold kept at 1. cbn [fst snd]. destruct (exported cd n && negb (is_empty_value v)) eqn:XE; [apply andb_prop in XE as [X NE]; apply negb_true_iff in NE|].
    + destruct (value_trip cd v C Hv Xv Tv) as (j & Ej & Oj & w & Dw & Cw). exists ((n, j) :: l). cbn [map all_some fold_right fst snd]. rewrite Ej. fold (all_some (map (fun f => match value_text cd (snd f) with Some t => Some (enc_string (fst f) ++ B ":" ++ t) | None => None end) (filter (kept cd) r))).
      rewrite E. split; [reflexivity|]. split; [constructor; [exact Oj|exact O]|]. intros d ND. cbn [into_row]. unfold into_member. rewrite (repaired_text n Un).
      assert (NI : Forall (fun f => (exported cd (fst f) && beqb (fst f) n) = false) d).
      { apply Forall_forall. intros f Hf. apply andb_false_iff. right. apply beqb_neq. intros <-. rewrite map_app in ND. cbn [map fst] in ND. apply NoDup_remove_2 in ND. apply ND. apply in_app_iff. left. apply in_map, Hf. }
      change (zero_row ((n, v) :: r)) with ((n, zero_of v) :: zero_row r).
      rewrite (into_field_at cd (fun m => exported cd m && beqb m n) d n (zero_of v) (zero_row r) _ _ NI) by (rewrite X, beqb_refl; reflexivity). rewrite Dw. cbn [fst snd].
      destruct (D (d ++ [(n, w)])) as (r' & Er & Fr). { rewrite <- app_assoc. cbn [app]. rewrite map_app in ND |- *. exact ND. }
      rewrite <- !app_assoc in Er. cbn [app] in Er. rewrite Er. exists ((n, w) :: r'). split; [reflexivity|]. constructor; [|exact Fr]. split; [reflexivity|]. cbn [fst snd]. split; [intros _; exact (full_back _ _ NE Cw)|congruence].
    + exists l. split; [exact E|]. split; [exact O|]. intros d ND. change (zero_row ((n, v) :: r)) with ((n, zero_of v) :: zero_row r).
      destruct (D (d ++ [(n, zero_of v)])) as (r' & Er & Fr). { rewrite <- app_assoc. cbn [app]. rewrite map_app in ND |- *. exact ND. }
      rewrite <- !app_assoc in Er. cbn [app] in Er. exists ((n, zero_of v) :: r'). split; [exact Er|]. constructor; [|exact Fr]. split; [reflexivity|]. cbn [fst snd]. split; [|reflexivity]. intros X. rewrite X in XE. cbn [andb] in XE. apply negb_false_iff in XE. exact (empty_back _ XE).
Qed.
Lemma row_trip cd r : codec_ok cd -> NoDup (map fst r) -> Forall (fun f => utf8_text (fst f) /\ holds (snd f) /\ expressible (snd f) /\ texts (snd f)) r ->
  exists t r', row_text cd r = Some t /\ row_unjson cd (zero_row r) t = (r', true) /\ Forall2 (back_in cd) r r'.
Proof.
  intros C ND F. destruct (rows_back cd r C F) as (l & E & O & D). destruct (D [] ND) as (r' & Er & Fr). cbn [app] in Er.
  assert (OO : json_ok (JObj l)) by (constructor; exact O).
  exists (json_text (JObj l)), r'. split; [|split; [|exact Fr]].
  - unfold row_text. fold (kept cd). rewrite E. reflexivity.
  - unfold row_unjson. rewrite (parse_text _ OO). cbn [json_repaired]. replace (skip_ws (json_text (JObj l))) with (json_text (JObj l)) by (pose proof (text_skip (JObj l) [] OO) as S; rewrite app_nil_r in S; symmetry; exact S).
    rewrite (object_parts_text l O), Er. reflexivity.
Qed.
Lemma value_trip_alone cd v : codec_ok cd -> holds v -> expressible v -> texts v ->
  exists t w, value_text cd v = Some t /\ value_unjson cd (zero_of v) t = (w, true) /\ comes_back v w.
Proof.
  intros C H X T. destruct (value_trip cd v C H X T) as (j & E & O & w & D & R). exists (json_text j), w. split; [exact E|]. split; [|exact R].
  unfold value_unjson. rewrite (parse_text j O). pose proof (next_text j [] O I) as N. rewrite app_nil_r in N. rewrite N, D. reflexivity.
Qed.
(** When json.Marshal fails. *)
Lemma value_fails cd v : codec_ok cd -> holds v -> (value_text cd v = None <-> ~ expressible v).
Proof.
  intros C H. split.
  - intros E X. destruct v as [c|n|n|n|b|b|z|s|size n|b|b|b|s|l|l|l];
      try (match goal with |- _ => destruct (value_trip cd _ C H X I) as (j & Ej & _); congruence end).
    + discriminate E.
    + cbn [value_text] in E. unfold list_text in E. destruct l as [l|]; [|discriminate E]. rewrite (all_some_map _ enc_string) in E by reflexivity. discriminate E.
  - intros X. destruct v as [c|n|n|n|b|b|z|s|size n|b|b|b|s|l|l|l]; cbn [expressible value_text holds] in *; try (exfalso; apply X; exact I).
    + apply not_finite_text; assumption.
    + rewrite zx_json_same. rewrite TimeProps.C89_json_error; [reflexivity| |]; intros Y; apply X; tauto.
    + destruct (Z.ltb_spec (f_abs b) inf_bits) as [L|L]; [exfalso; apply X, finite_abs; auto|reflexivity].
    + destruct (Z.ltb_spec (f_abs (widen b)) inf_bits) as [L|L]; [exfalso; apply X, finite_abs; split; [apply H|exact L]|reflexivity].
Qed.
Lemma all_some_none {A} (l : list (option A)) : all_some l = None <-> In None l.
Proof.
  induction l as [|[x|] l IH]; cbn [all_some fold_right In]; [split; [discriminate|tauto]| |split; [left; reflexivity|reflexivity]].
  fold (all_some l). destruct (all_some l) as [r|].
  - split; [discriminate|]. intros [E|E]; [discriminate E|]. apply IH in E. discriminate E.
  - split; [intros _; right; apply IH; reflexivity|reflexivity].
Qed.
Lemma express_empty v : is_empty_value v = true -> expressible v.
Proof.
  destruct v as [c|n|n|n|b|b|z|s|size n|b|b|b|s|l|l|l]; cbn [is_empty_value expressible]; intros E; try exact I; try discriminate; apply Z.eqb_eq in E; subst b; apply zero_finite.
Qed.
Lemma row_fails cd r : codec_ok cd -> Forall (fun f => holds (snd f)) r ->
  (row_text cd r = None <-> exists f, In f r /\ exported cd (fst f) = true /\ ~ expressible (snd f)).
Proof.
  intros C H. rewrite Forall_forall in H. unfold row_text.
  match goal with |- context[all_some ?x] => set (L := x); destruct (all_some L) eqn:E end.
  - split; [discriminate|]. intros (f & If & Ex & N). exfalso. assert (X : all_some L = None); [|congruence]. apply all_some_none. unfold L. apply in_map_iff. exists f.
    pose proof N as NE0. apply (value_fails cd _ C (H f If)) in N. rewrite N. split; [reflexivity|]. apply filter_In. split; [exact If|]. rewrite Ex. destruct (is_empty_value (snd f)) eqn:Z; [|reflexivity]. exfalso. apply NE0. exact (express_empty _ Z).
  - split; [intros _|reflexivity]. apply all_some_none in E. unfold L in E. apply in_map_iff in E as (f & Ef & If). apply filter_In in If as [If Ex]. apply andb_prop in Ex as [Ex _]. exists f. split; [exact If|]. split; [exact Ex|].
    apply (value_fails cd _ C (H f If)). destruct (value_text cd (snd f)); [discriminate Ef|reflexivity].
Qed.
Lemma f2_impl {A C} (R S : A -> C -> Prop) l l' : (forall a c, R a c -> S a c) -> Forall2 R l l' -> Forall2 S l l'.
Proof. intros H. induction 1; constructor; auto. Qed.
(** What a document does not name is not changed. *)
Lemma into_field_keeps cd p : forall r v t r' o, into_field cd p r v t = Some (r', o) -> Forall2 (fun f f' => fst f = fst f' /\ (p (fst f) = false -> f' = f)) r r'.
Proof.
  assert (S : forall r : row, Forall2 (fun f f' => fst f = fst f' /\ (p (fst f) = false -> f' = f)) r r) by (induction r; constructor; auto).
  induction r as [|[n x] r IH]; intros v t r' o; cbn [into_field]; [discriminate|]. destruct (p n) eqn:P.
  - destruct (into_value cd x v t) as [y o']. intros [= <- <-]. constructor; [split; [reflexivity|cbn [fst]; congruence]|apply S].
  - destruct (into_field cd p r v t) as [[r'' o']|] eqn:E; [|discriminate]. intros [= <- <-]. constructor; [split; reflexivity|exact (IH _ _ _ _ E)].
Qed.
Lemma into_row_keeps cd l : forall r, Forall2 (fun f f' => fst f = fst f' /\ ((forall k, In k (map fst l) -> ~ names cd k (fst f)) -> f' = f)) r (fst (into_row cd r l)).
Proof.
  assert (S : forall (Q : bytes * rval -> Prop) (r : row), Forall2 (fun f f' => fst f = fst f' /\ (Q f -> f' = f)) r r) by (intros Q; induction r; constructor; auto).
  induction l as [|[k [v t]] l IH]; intros r; cbn [into_row]; [apply S|].
  set (st := into_member cd r k v t).
  assert (ST : Forall2 (fun f f' => fst f = fst f' /\ (~ names cd k (fst f) -> f' = f)) r (fst st)).
  { unfold st, into_member. destruct (into_field cd (fun n => exported cd n && beqb n k) r v t) as [[r1 o]|] eqn:E1.
    - eapply f2_impl; [|exact (into_field_keeps _ _ _ _ _ _ _ E1)]. intros f f' [A N]. split; [exact A|]. intros X. apply N. apply not_true_iff_false. intros Y. apply andb_prop in Y as [Y1 Y2]. apply beqb_eq in Y2. apply X. split; [exact Y1|left; symmetry; exact Y2].
    - destruct (into_field cd (fun n => exported cd n && beqb (fold cd n) (fold cd k)) r v t) as [[r1 o]|] eqn:E2; [|apply S].
      eapply f2_impl; [|exact (into_field_keeps _ _ _ _ _ _ _ E2)]. intros f f' [A N]. split; [exact A|]. intros X. apply N. apply not_true_iff_false. intros Y. apply andb_prop in Y as [Y1 Y2]. apply beqb_eq in Y2. apply X. split; [exact Y1|right; symmetry; exact Y2]. }
  destruct st as [r1 o]. cbn [fst] in ST.
  assert (G : forall r2, Forall2 (fun f f' => fst f = fst f' /\ ((forall k, In k (map fst l) -> ~ names cd k (fst f)) -> f' = f)) r1 r2 ->
    Forall2 (fun f f' => fst f = fst f' /\ ((forall k', In k' (map fst ((k, (v, t)) :: l)) -> ~ names cd k' (fst f)) -> f' = f)) r r2).
  { intros r2 F. clear -ST F. revert r2 F. induction ST as [|f f1 r r1 [A1 N1] _ IH]; intros r2 F; inversion F as [|? f2 ? r2' [A2 N2] F']; subst; constructor; [|exact (IH _ F')].
    split; [congruence|]. intros X. assert (E1 : f1 = f) by (apply N1, X; left; reflexivity). subst f1. apply N2. intros k' Hk. apply X. right. exact Hk. }
  specialize (IH r1). destruct (into_row cd r1 l) as [r2 o']. cbn [fst] in IH.
  (destruct o; cbn [fst]; apply G); [exact IH|exact IH|]. clear. induction r1; constructor; auto.
Qed.

(** ** The parts of any text *)
Definition tail_of (r s : bytes) : Prop := exists p, s = p ++ r.
Definition past (r s : bytes) : Prop := exists p, p <> [] /\ s = p ++ r.
Lemma tail_refl s : tail_of s s. Proof. exists []. reflexivity. Qed.
Lemma past_tail r s : past r s -> tail_of r s. Proof. intros (p & _ & E). exists p. exact E. Qed.
Lemma tail_trans a b c : tail_of a b -> tail_of b c -> tail_of a c.
Proof. intros [p ->] [q ->]. exists (q ++ p). apply app_assoc. Qed.
Lemma past_trans_l a b c : past a b -> tail_of b c -> past a c.
Proof. intros (p & N & ->) [q ->]. exists (q ++ p). split; [destruct q; [exact N|discriminate]|apply app_assoc]. Qed.
Lemma past_trans_r a b c : tail_of a b -> past b c -> past a c.
Proof. intros [p ->] (q & N & ->). exists (q ++ p). split; [destruct q; [congruence|discriminate]|apply app_assoc]. Qed.
Lemma past_cons c r : past r (c :: r). Proof. exists [c]. split; [discriminate|reflexivity]. Qed.
Lemma past_cons' c r r' : tail_of r' r -> past r' (c :: r). Proof. intros H. exact (past_trans_r _ _ _ H (past_cons c r)). Qed.
Lemma past_length r s : past r s -> (length r < length s)%nat.
Proof. intros (p & N & ->). rewrite app_length. destruct p; [congruence|cbn; lia]. Qed.
Lemma tail_length r s : tail_of r s -> (length r <= length s)%nat.
Proof. intros (p & ->). rewrite app_length. lia. Qed.
Lemma tail_skip s : tail_of (skip_ws s) s.
Proof. induction s as [|c s IH]; [apply tail_refl|]. cbn [skip_ws]. destruct (is_ws c); [|apply tail_refl]. apply past_tail, past_cons', IH. Qed.
Lemma skip_cons s c r : skip_ws s = c :: r -> past r s.
Proof. intros E. pose proof (tail_skip s) as T. rewrite E in T. exact (past_trans_l _ _ _ (past_cons c r) T). Qed.
Lemma past_u4 s u r : u4 s = Some (u, r) -> tail_of r s.
Proof. destruct s as [|a [|b [|c [|d s]]]]; try discriminate. cbn [u4]. destruct (hex_val a), (hex_val b), (hex_val c), (hex_val d); try discriminate. intros [= _ <-]. exists [a; b; c; d]. reflexivity. Qed.
Lemma past_second u s v r : second_half u s = Some (v, r) -> tail_of r s.
Proof.
  destruct s as [|b [|e s]]; try discriminate. cbn [second_half]. destruct (_ && _); [|discriminate]. destruct (u4 s) as [[x r']|] eqn:E; [|discriminate]. destruct (_ && _); [|discriminate]. intros [= _ <-].
  apply past_tail, past_cons', past_tail, past_cons', (past_u4 _ _ _ E).
Qed.
Lemma past_unquote f : forall s x r, unquote f s = Some (x, r) -> past r s.
Proof.
  induction f as [|f IH]; intros s x r E; [discriminate|]. cbn [unquote] in E. destruct s as [|c s0]; [discriminate|].
  assert (A : forall a s1, tail_of s1 s0 -> add_to a (unquote f s1) = Some (x, r) -> past r (c :: s0)).
  { intros a s1 T X. unfold add_to in X. destruct (unquote f s1) as [[b r']|] eqn:U; [|discriminate]. injection X as _ <-. apply past_cons'. exact (tail_trans _ _ _ (past_tail _ _ (IH _ _ _ U)) T). }
  destruct (byte c =? 34). { injection E as _ <-. apply past_cons. }
  destruct (byte c =? 92).
  - destruct s0 as [|e r1]; [discriminate|]. assert (T1 : tail_of r1 (e :: r1)) by apply past_tail, past_cons. destruct (simple_esc e) as [y|]; [exact (A _ _ T1 E)|].
    destruct (byte e =? 117); [|discriminate]. destruct (u4 r1) as [[u r2]|] eqn:U4; [|discriminate]. assert (T2 : tail_of r2 (e :: r1)) by exact (tail_trans _ _ _ (past_u4 _ _ _ U4) T1).
    destruct (surrogate u); [|exact (A _ _ T2 E)]. destruct (second_half u r2) as [[v r3]|] eqn:S2; [|exact (A _ _ T2 E)]. exact (A _ _ (tail_trans _ _ _ (past_second _ _ _ _ S2) T2) E).
  - destruct (byte c <? 32); [discriminate|]. destruct (utf8_size (c :: s0)) as [|n] eqn:Us; [exact (A _ _ (tail_refl _) E)|]. cbn [skipn] in E. refine (A _ _ _ E). exists (firstn n s0). symmetry. apply firstn_skipn.
Qed.
Lemma tail_span s a b : span_digits s = (a, b) -> tail_of b s.
Proof. intros E. exists a. apply (span_spec _ _ _ E). Qed.
Lemma past_num s t r : scan_num s = Some (t, r) -> past r s.
Proof.
  unfold scan_num. destruct (match s with c :: r0 => if byte c =? 45 then ([c], r0) else ([], s) | [] => ([], s) end) as [sg r0] eqn:E0.
  assert (T0 : tail_of r0 s). { destruct s as [|c s']; [injection E0 as <- <-; apply tail_refl|]. destruct (byte c =? 45); injection E0 as <- <-; [apply past_tail, past_cons|apply tail_refl]. }
  destruct (num_int r0) as [[i r1]|] eqn:E1; [|discriminate]. destruct (num_frac r1) as [[fr r2]|] eqn:E2; [|discriminate]. destruct (num_exp r2) as [[e r3]|] eqn:E3; [|discriminate]. intros E. injection E as <- <-.
  assert (P1 : past r1 r0). { unfold num_int in E1. destruct r0 as [|c r0]; [discriminate|]. destruct (byte c =? 48); [injection E1 as <- <-; apply past_cons|]. destruct (span_digits (c :: r0)) as [[|d a] b] eqn:Es; [discriminate|]. injection E1 as <- <-. exists (d :: a). split; [discriminate|]. apply (span_spec _ _ _ Es). }
  assert (T2 : tail_of r2 r1). { unfold num_frac in E2. destruct r1 as [|c r1]; [injection E2 as <- <-; apply tail_refl|]. destruct (byte c =? 46); [|injection E2 as <- <-; apply tail_refl]. destruct (span_digits r1) as [[|d a] b] eqn:Es; [discriminate|]. injection E2 as <- <-. apply past_tail, past_cons', (tail_span _ _ _ Es). }
  assert (T3 : tail_of r3 r2).
  { unfold num_exp in E3. destruct r2 as [|c r2]; [injection E3 as <- <-; apply tail_refl|]. destruct ((byte c =? 101) || (byte c =? 69)); [|injection E3 as <- <-; apply tail_refl].
    destruct (match r2 with d :: r' => if (byte d =? 43) || (byte d =? 45) then ([d], r') else ([], r2) | [] => ([], r2) end) as [sg' r1'] eqn:Eg.
    assert (Tg : tail_of r1' r2). { destruct r2 as [|d' r2]; [injection Eg as <- <-; apply tail_refl|]. destruct ((byte d' =? 43) || (byte d' =? 45)); injection Eg as <- <-; [apply past_tail, past_cons|apply tail_refl]. }
    destruct (span_digits r1') as [[|d a] b] eqn:Es; [discriminate|]. injection E3 as <- <-. apply past_tail, past_cons'. exact (tail_trans _ _ _ (tail_span _ _ _ Es) Tg). }
  exact (past_trans_l _ _ _ (past_trans_r _ _ _ (tail_trans _ _ _ T3 T2) P1) T0).
Qed.
Lemma past_prefix p s n : p <> [] -> length p = n -> has_prefix p s = true -> past (skipn n s) s.
Proof. intros N <- H. apply has_prefix_spec in H as [t ->]. rewrite skipn_app, Nat.sub_diag, skipn_all. exists p. split; [exact N|reflexivity]. Qed.
(** Any fuel that suffices gives the same result, and twice the length suffices. *)
Lemma parse_fuel f :
  (forall s v r, jval f s = Some (v, r) -> past r s /\ forall g, (2 * length s + 1 <= g)%nat -> jval g s = Some (v, r)) /\
  (forall s l r, jelems f s = Some (l, r) -> past r s /\ forall g, (2 * length s + 2 <= g)%nat -> jelems g s = Some (l, r)) /\
  (forall s l r, jmembers f s = Some (l, r) -> past r s /\ forall g, (2 * length s + 2 <= g)%nat -> jmembers g s = Some (l, r)).
Proof.
  induction f as [|f (IH1 & IH2 & IH3)]; [split; [|split]; intros; discriminate|]. split; [|split].
  - intros s v r E. cbn [jval] in E. destruct (skip_ws s) as [|c r0] eqn:Es; [discriminate|]. pose proof (tail_skip s) as Ts. rewrite Es in Ts. pose proof (tail_length _ _ Ts) as Ls. cbn [length] in Ls.
    assert (K : past r (c :: r0) /\ forall g, (2 * length (c :: r0) + 1 <= g)%nat ->
      match g with O => None | S g => 
          if byte c =? 34 then match unquote (S (length r0)) r0 with Some (x, r') => Some (JStr x, r') | None => None end
          else if byte c =? 91 then
            match skip_ws r0 with
            | d :: r1 => if byte d =? 93 then Some (JArr [], r1) else match jelems g r0 with Some (l, r2) => Some (JArr l, r2) | None => None end
            | [] => None
            end
          else if byte c =? 123 then
            match skip_ws r0 with
            | d :: r1 => if byte d =? 125 then Some (JObj [], r1) else match jmembers g r0 with Some (l, r2) => Some (JObj l, r2) | None => None end
            | [] => None
            end
          else if has_prefix (B "null") (c :: r0) then Some (JNull, skipn 4 (c :: r0))
          else if has_prefix (B "true") (c :: r0) then Some (JBool true, skipn 4 (c :: r0))
          else if has_prefix (B "false") (c :: r0) then Some (JBool false, skipn 5 (c :: r0))
          else match scan_num (c :: r0) with Some (t, r') => Some (JNum t, r') | None => None end end = Some (v, r)).
    { destruct (byte c =? 34). { destruct (unquote _ r0) as [[x r']|] eqn:U; [|discriminate]. injection E as <- <-. split; [apply past_cons', past_tail, (past_unquote _ _ _ _ U)|]. intros [|g] G; [lia|reflexivity]. }
      destruct (byte c =? 91).
      { destruct (skip_ws r0) as [|d r1] eqn:Ed; [discriminate|]. destruct (byte d =? 93).
        - injection E as <- <-. split; [apply past_cons', past_tail, (skip_cons _ _ _ Ed)|]. intros [|g] G; [lia|reflexivity].
        - destruct (jelems f r0) as [[l r2]|] eqn:El; [|discriminate]. injection E as <- <-. destruct (IH2 _ _ _ El) as [P F]. split; [apply past_cons', past_tail, P|]. intros [|g] G; [lia|]. rewrite F by (cbn [length] in G; lia). reflexivity. }
      destruct (byte c =? 123).
      { destruct (skip_ws r0) as [|d r1] eqn:Ed; [discriminate|]. destruct (byte d =? 125).
        - injection E as <- <-. split; [apply past_cons', past_tail, (skip_cons _ _ _ Ed)|]. intros [|g] G; [lia|reflexivity].
        - destruct (jmembers f r0) as [[l r2]|] eqn:El; [|discriminate]. injection E as <- <-. destruct (IH3 _ _ _ El) as [P F]. split; [apply past_cons', past_tail, P|]. intros [|g] G; [lia|]. rewrite F by (cbn [length] in G; lia). reflexivity. }
      destruct (has_prefix (B "null") (c :: r0)) eqn:H1; [injection E as <- <-; split; [exact (past_prefix (B "null") (c :: r0) 4 ltac:(discriminate) eq_refl H1)|intros [|g] G; [lia|reflexivity]]|].
      destruct (has_prefix (B "true") (c :: r0)) eqn:H2; [injection E as <- <-; split; [exact (past_prefix (B "true") (c :: r0) 4 ltac:(discriminate) eq_refl H2)|intros [|g] G; [lia|reflexivity]]|].
      destruct (has_prefix (B "false") (c :: r0)) eqn:H3; [injection E as <- <-; split; [exact (past_prefix (B "false") (c :: r0) 5 ltac:(discriminate) eq_refl H3)|intros [|g] G; [lia|reflexivity]]|].
      destruct (scan_num (c :: r0)) as [[t r']|] eqn:En; [|discriminate]. injection E as <- <-. split; [exact (past_num _ _ _ En)|]. intros [|g] G; [lia|reflexivity]. }
    destruct K as [P K]. split; [exact (past_trans_l _ _ _ P Ts)|]. intros g G. specialize (K g ltac:(cbn [length]; lia)). destruct g as [|g]; [discriminate K|]. cbn [jval]. rewrite Es. exact K.
  - intros s l r E. cbn [jelems] in E. destruct (jval f s) as [[v r0]|] eqn:Ev; [|discriminate]. destruct (IH1 _ _ _ Ev) as [P0 F0]. destruct (skip_ws r0) as [|c r1] eqn:Es; [discriminate|]. pose proof (skip_cons _ _ _ Es) as P1.
    pose proof (past_trans_r _ _ _ (past_tail _ _ P1) P0) as P2. pose proof (past_length _ _ P2) as L2.
    destruct (byte c =? 44) eqn:C1.
    + destruct (jelems f r1) as [[l' r2]|] eqn:El; [|discriminate]. injection E as <- <-. destruct (IH2 _ _ _ El) as [P3 F3]. split; [exact (past_trans_r _ _ _ (past_tail _ _ P3) P2)|].
      intros [|g] G; [lia|]. cbn [jelems]. rewrite F0 by lia. rewrite Es, C1, F3 by lia. reflexivity.
    + destruct (byte c =? 93) eqn:C2; [|discriminate]. injection E as <- <-. split; [exact P2|]. intros [|g] G; [lia|]. cbn [jelems]. rewrite F0 by lia. rewrite Es, C1, C2. reflexivity.
  - intros s l r E. cbn [jmembers] in E. destruct (skip_ws s) as [|q r0] eqn:Eq; [discriminate|]. pose proof (skip_cons _ _ _ Eq) as Pq. destruct (negb (byte q =? 34)) eqn:Q; [discriminate|]. destruct (unquote _ r0) as [[k r1]|] eqn:U; [|discriminate]. pose proof (past_unquote _ _ _ _ U) as Pu.
    destruct (skip_ws r1) as [|co r2] eqn:Ec; [discriminate|]. pose proof (skip_cons _ _ _ Ec) as Pc. destruct (negb (byte co =? 58)) eqn:CO; [discriminate|]. destruct (jval f r2) as [[v r3]|] eqn:Ev; [|discriminate]. destruct (IH1 _ _ _ Ev) as [P0 F0].
    destruct (skip_ws r3) as [|c r4] eqn:Es; [discriminate|]. pose proof (skip_cons _ _ _ Es) as P1.
    pose proof (past_length _ _ Pq). pose proof (past_length _ _ Pu). pose proof (past_length _ _ Pc). pose proof (past_length _ _ P0). pose proof (past_length _ _ P1).
    assert (P2 : past r4 s). { eapply past_trans_r; [|exact Pq]. apply past_tail. eapply past_trans_r; [|exact Pu]. apply past_tail. eapply past_trans_r; [|exact Pc]. apply past_tail. eapply past_trans_r; [|exact P0]. apply past_tail. exact P1. }
    destruct (byte c =? 44) eqn:C1.
    + destruct (jmembers f r4) as [[l' r5]|] eqn:El; [|discriminate]. injection E as <- <-. destruct (IH3 _ _ _ El) as [P3 F3]. split; [exact (past_trans_r _ _ _ (past_tail _ _ P3) P2)|].
      intros [|g] G; [lia|]. cbn [jmembers]. rewrite Eq, Q, U, Ec, CO, F0 by lia. rewrite Es, C1, F3 by lia. reflexivity.
    + destruct (byte c =? 125) eqn:C2; [|discriminate]. injection E as <- <-. split; [exact P2|]. intros [|g] G; [lia|]. cbn [jmembers]. rewrite Eq, Q, U, Ec, CO, F0 by lia. rewrite Es, C1, C2. reflexivity.
Qed.
