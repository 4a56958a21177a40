(** Proofs about QueryParams. *)
From Verif Require Import GoBase GoBaseFacts TypeModel ParamModel ParamSpec.
From Coq Require Import Permutation.
Open Scope Z_scope.

(** ** The builder follows the accepted calls *)
Definition acc_step (acc : list call) (c : call) : list call :=
  match c with CReset => [] | _ => if refused (existsb is_paging acc) c then acc else acc ++ [c] end.
Lemma accepted_snoc l c : accepted (l ++ [c]) = acc_step (accepted l) c.
Proof. unfold accepted. rewrite fold_left_app. reflexivity. Qed.
Lemma run_snoc mm q l c : run mm q (l ++ [c]) = step mm (run mm q l) c.
Proof. unfold run. rewrite fold_left_app. reflexivity. Qed.

Definition kind_of (b : builder) : paging := if negb (is_nil (qb_cursor b)) then ByCursor else if 0 <? qb_offset b then ByOffset else FirstOrNone.
Record inv (q : bytes) (b : builder) (h : list call) : Prop := {
  i_name : qb_name b = q;
  i_enums : qb_enums b = enums_used h;
  i_args : qb_args b = args_used h;
  i_flags : qb_flags b = flags_used h;
  i_limit : 0 <= qb_limit b;
  i_paged : (0 <? qb_limit b) = existsb is_paging h;
  i_zero : qb_limit b = 0 -> qb_offset b = 0 /\ qb_cursor b = ANil;
  i_kind : kind_of b = paging_used h;
  i_pos : 0 <= qb_pos b < 2 ^ 64;
  i_bits : forall p, 0 <= p -> (Z.testbit (qb_pos b) p = true <-> exists c, In c h /\ sets p c);
  i_hok : Forall call_ok h;
  i_low : forall p, (exists c, In c h /\ sets p c) -> 0 <= p <= 63 }.

Lemma page_limit_pos l : 0 <= l -> 0 < page_limit l.
Proof. intros H. unfold page_limit, default_page_size. destruct (l =? 0) eqn:E; [lia|]. apply Z.eqb_neq in E. lia. Qed.
Lemma bit_spec pos : 0 <= pos <= 63 -> bit pos = 2 ^ pos /\ 0 <= bit pos < 2 ^ 64.
Proof.
  intros H. unfold bit, u64, wrap_u. rewrite Z.shiftl_1_l. assert (0 < 2 ^ pos) by (apply Z.pow_pos_nonneg; lia).
  assert (2 ^ pos < 2 ^ 64) by (apply Z.pow_lt_mono_r; lia). rewrite Z.mod_small by lia. lia.
Qed.
Lemma bit_high pos : 64 <= pos -> bit pos = 0.
Proof.
  intros H. unfold bit, u64, wrap_u. rewrite Z.shiftl_1_l. replace pos with (pos - 64 + 64) by lia. rewrite Z.pow_add_r by lia. apply Z.mod_mul. lia.
Qed.
Lemma lor_range a b : 0 <= a < 2 ^ 64 -> 0 <= b < 2 ^ 64 -> 0 <= Z.lor a b < 2 ^ 64.
Proof.
  intros Ha Hb. split; [apply Z.lor_nonneg; lia|]. destruct (Z.eq_dec (Z.lor a b) 0) as [->|N]; [lia|].
  assert (0 <= Z.lor a b) by (apply Z.lor_nonneg; lia). apply Z.log2_lt_pow2; [lia|]. rewrite Z.log2_lor by lia.
  assert (L : forall x, 0 <= x < 2 ^ 64 -> Z.log2 x < 64). { intros x Hx. destruct (Z.eq_dec x 0) as [->|]; [cbn; lia|]. apply Z.log2_lt_pow2; lia. }
  pose proof (L a Ha). pose proof (L b Hb). lia.
Qed.
Lemma flat_map_snoc {A C} (f : A -> list C) l x : flat_map f (l ++ [x]) = flat_map f l ++ f x.
Proof. rewrite flat_map_app. cbn. rewrite app_nil_r. reflexivity. Qed.
Lemma bits_snoc h c pos a : 0 <= pos <= 63 ->
  (forall p, sets p c <-> p = pos) -> (forall p, 0 <= p -> (Z.testbit a p = true <-> exists c, In c h /\ sets p c)) ->
  forall p, 0 <= p -> (Z.testbit (Z.lor a (bit pos)) p = true <-> exists c', In c' (h ++ [c]) /\ sets p c').
Proof.
  intros Hp Hc Ha p H. rewrite Z.lor_spec, orb_true_iff, (Ha p H). destruct (bit_spec pos Hp) as [-> _]. rewrite Z.pow2_bits_eqb by lia. rewrite Z.eqb_eq. split.
  - intros [(x & Hx & Sx)|E]; [exists x; split; [apply in_or_app; left; exact Hx|exact Sx]|exists c; split; [apply in_or_app; right; left; reflexivity|apply Hc; lia]].
  - intros (x & Hx & Sx). apply in_app_or in Hx as [Hx|[<-|[]]]; [left; exists x; split; assumption|right; apply Hc in Sx; lia].
Qed.
Lemma bits_same h c a : (forall p, ~ sets p c) -> (forall p, 0 <= p -> (Z.testbit a p = true <-> exists c, In c h /\ sets p c)) ->
  forall p, 0 <= p -> (Z.testbit a p = true <-> exists c', In c' (h ++ [c]) /\ sets p c').
Proof.
  intros Hc Ha p H. rewrite (Ha p H). split; intros (x & Hx & Sx).
  - exists x. split; [apply in_or_app; left; exact Hx|exact Sx].
  - apply in_app_or in Hx as [Hx|[<-|[]]]; [exists x; split; assumption|destruct (Hc p Sx)].
Qed.
Lemma low_snoc h c : (forall p, (exists c, In c h /\ sets p c) -> 0 <= p <= 63) -> (forall p, sets p c -> 0 <= p <= 63) -> forall p, (exists c', In c' (h ++ [c]) /\ sets p c') -> 0 <= p <= 63.
Proof. intros H1 H2 p (x & Hx & Sx). apply in_app_or in Hx as [Hx|[<-|[]]]; [apply H1; exists x; split; assumption|apply H2; exact Sx]. Qed.

Ltac inv_fields := cbn [qb_name qb_flags qb_pos qb_enums qb_args qb_hash qb_null qb_limit qb_offset qb_cursor].
Lemma empty_inv q n : inv q (mkB q [] 0 [] [] [] n 0 0 ANil) [].
Proof.
  constructor; inv_fields; try reflexivity; try lia.
  - intros _. split; reflexivity.
  - intros p _. rewrite Z.bits_0. split; [discriminate|]. intros (c & Hc & _). destruct Hc.
  - constructor.
  - intros p (c & Hc & _). destruct Hc.
Qed.
Lemma step_inv mm q b h c : inv q b h -> call_ok c -> inv q (step mm b c) (acc_step h c).
Proof.
  intros I Hc. destruct c as [p v|p v|vs|l o|l p v|fs|cs| |]; cbn [call_ok] in Hc; unfold step; cbn [try_call acc_step refused].
  - unfold pb_set, check_page. rewrite <- (i_paged _ _ _ I). destruct (63 <? p) eqn:E; cbn [orb]; [exact I|]. apply Z.ltb_ge in E. unfold uint32_ok in Hc.
    destruct (0 <? qb_limit b) eqn:EL; [exact I|]. destruct I. constructor; inv_fields; try assumption.
    + unfold enums_used. rewrite flat_map_snoc, app_nil_r. assumption.
    + unfold args_used. rewrite flat_map_snoc. cbn. f_equal. assumption.
    + unfold flags_used. rewrite fold_left_app. assumption.
    + rewrite existsb_app. cbn. rewrite orb_false_r. assumption.
    + unfold paging_used. rewrite fold_left_app. assumption.
    + apply lor_range; [assumption|apply bit_spec; lia].
    + apply bits_snoc; [lia|intros x; cbn; split; intros; congruence|assumption].
    + apply Forall_app. split; [assumption|constructor; [exact Hc|constructor]].
    + apply low_snoc; [assumption|intros x Hx; cbn in Hx; lia].
  - destruct Hc as [Hp Hv]. unfold pb_enum, check_page. rewrite <- (i_paged _ _ _ I). destruct (63 <? p) eqn:E; cbn [orb]; [exact I|]. apply Z.ltb_ge in E. unfold uint32_ok in Hp.
    destruct (0 <? qb_limit b) eqn:EL; [exact I|]. destruct I. constructor; inv_fields; try assumption.
    + unfold enums_used. rewrite flat_map_snoc. cbn. f_equal. assumption.
    + unfold args_used. rewrite flat_map_snoc, app_nil_r. assumption.
    + unfold flags_used. rewrite fold_left_app. assumption.
    + rewrite existsb_app. cbn. rewrite orb_false_r. assumption.
    + unfold paging_used. rewrite fold_left_app. assumption.
    + apply lor_range; [assumption|apply bit_spec; lia].
    + apply bits_snoc; [lia|intros x; cbn; split; intros; congruence|assumption].
    + apply Forall_app. split; [assumption|constructor; [split; assumption|constructor]].
    + apply low_snoc; [assumption|intros x Hx; cbn in Hx; lia].
  - unfold pb_add, check_page. rewrite <- (i_paged _ _ _ I). destruct (0 <? qb_limit b) eqn:EL; [exact I|]. destruct I. constructor; inv_fields; try assumption.
    + unfold enums_used. rewrite flat_map_snoc, app_nil_r. assumption.
    + unfold args_used. rewrite flat_map_snoc. cbn. f_equal. assumption.
    + unfold flags_used. rewrite fold_left_app. assumption.
    + rewrite existsb_app. cbn. rewrite orb_false_r. assumption.
    + unfold paging_used. rewrite fold_left_app. assumption.
    + apply bits_same; [intros x []|assumption].
    + apply Forall_app. split; [assumption|constructor; [exact Logic.I|constructor]].
    + apply low_snoc; [assumption|intros x []].
  - destruct Hc as [Hl Ho]. unfold pb_page, check_page. rewrite <- (i_paged _ _ _ I). destruct (0 <? qb_limit b) eqn:EL; [exact I|]. destruct I.
    apply Z.ltb_ge in EL. destruct (i_zero0 ltac:(lia)) as [Z1 Z2]. pose proof (page_limit_pos l ltac:(unfold uint32_ok in Hl; lia)) as PL. constructor; inv_fields; try assumption.
    + unfold enums_used. rewrite flat_map_snoc, app_nil_r. assumption.
    + unfold args_used. rewrite flat_map_snoc. cbn. f_equal. assumption.
    + unfold flags_used. rewrite fold_left_app. assumption.
    + lia.
    + rewrite existsb_app. cbn. rewrite orb_true_r. apply Z.ltb_lt. exact PL.
    + intros X. lia.
    + unfold paging_used in *. rewrite fold_left_app. cbn [fold_left paging_of]. rewrite <- i_kind0. unfold kind_of. inv_fields. rewrite Z1, Z2. reflexivity.
    + apply bits_same; [intros x []|assumption].
    + apply Forall_app. split; [assumption|constructor; [split; assumption|constructor]].
    + apply low_snoc; [assumption|intros x []].
  - destruct Hc as [Hl Hp]. unfold pb_cursor, pb_set, check_page. rewrite <- (i_paged _ _ _ I). destruct (63 <? p) eqn:E; cbn [orb]; [exact I|]. apply Z.ltb_ge in E. unfold uint32_ok in Hp.
    destruct (0 <? qb_limit b) eqn:EL; [exact I|]. destruct I. inv_fields.
    apply Z.ltb_ge in EL. destruct (i_zero0 ltac:(lia)) as [Z1 Z2]. pose proof (page_limit_pos l ltac:(unfold uint32_ok in Hl; lia)) as PL. constructor; inv_fields; try assumption.
    + unfold enums_used. rewrite flat_map_snoc, app_nil_r. assumption.
    + unfold args_used. rewrite flat_map_snoc. rewrite <- app_assoc. cbn. f_equal. assumption.
    + unfold flags_used. rewrite fold_left_app. assumption.
    + lia.
    + rewrite existsb_app. cbn. rewrite orb_true_r. apply Z.ltb_lt. exact PL.
    + intros X. lia.
    + unfold paging_used in *. rewrite fold_left_app. cbn [fold_left paging_of]. rewrite <- i_kind0. unfold kind_of. inv_fields. rewrite Z1, Z2. destruct v; reflexivity.
    + apply lor_range; [assumption|apply bit_spec; lia].
    + apply bits_snoc; [lia|intros x; cbn; split; intros; congruence|assumption].
    + apply Forall_app. split; [assumption|constructor; [split; assumption|constructor]].
    + apply low_snoc; [assumption|intros x Hx; cbn in Hx; lia].
  - destruct I. constructor; inv_fields; try assumption.
    + unfold enums_used. rewrite flat_map_snoc, app_nil_r. assumption.
    + unfold args_used. rewrite flat_map_snoc, app_nil_r. assumption.
    + unfold flags_used. rewrite fold_left_app. reflexivity.
    + rewrite existsb_app. cbn. rewrite orb_false_r. assumption.
    + unfold paging_used. rewrite fold_left_app. assumption.
    + apply bits_same; [intros x []|assumption].
    + apply Forall_app. split; [assumption|constructor; [exact Hc|constructor]].
    + apply low_snoc; [assumption|intros x []].
  - destruct I. constructor; inv_fields; try assumption.
    + unfold enums_used. rewrite flat_map_snoc, app_nil_r. assumption.
    + unfold args_used. rewrite flat_map_snoc, app_nil_r. assumption.
    + unfold flags_used. rewrite fold_left_app. assumption.
    + rewrite existsb_app. cbn. rewrite orb_false_r. assumption.
    + unfold paging_used. rewrite fold_left_app. assumption.
    + apply bits_same; [intros x []|assumption].
    + apply Forall_app. split; [assumption|constructor; [exact Logic.I|constructor]].
    + apply low_snoc; [assumption|intros x []].
  - unfold pb_name. destruct I. destruct (is_empty (qb_hash b)); cbn [fst]; constructor; inv_fields; try assumption.
    all: try (unfold enums_used; rewrite flat_map_snoc, app_nil_r; assumption).
    all: try (unfold args_used; rewrite flat_map_snoc, app_nil_r; assumption).
    all: try (unfold flags_used; rewrite fold_left_app; assumption).
    all: try (rewrite existsb_app; cbn; rewrite orb_false_r; assumption).
    all: try (unfold paging_used; rewrite fold_left_app; assumption).
    all: try (apply bits_same; [intros x []|assumption]).
    all: try (apply Forall_app; split; [assumption|constructor; [exact Logic.I|constructor]]).
    all: apply low_snoc; [assumption|intros x []].
  - unfold pb_reset. rewrite (i_name _ _ _ I). apply empty_inv.
Qed.
Lemma new_inv q : inv q (new_params q) [].
Proof. apply empty_inv. Qed.
Lemma run_inv mm q l : Forall call_ok l -> inv q (run mm q l) (accepted l).
Proof.
  induction l as [|c l IH] using rev_ind; intros H; [apply new_inv|]. apply Forall_app in H as [H1 H2]. inversion H2; subst.
  rewrite run_snoc, accepted_snoc. apply step_inv; [apply IH; exact H1|assumption].
Qed.
(** ** Null columns and the cached name *)
Lemma run_null mm q l : no_name l -> qb_null (run mm q l) = nulls_used l /\ qb_hash (run mm q l) = [].
Proof.
  induction l as [|c l IH] using rev_ind; intros H; [split; reflexivity|].
  assert (Hl : no_name l) by (intros X; apply H, in_or_app; left; exact X). destruct (IH Hl) as [I1 I2].
  rewrite run_snoc. unfold nulls_used. rewrite fold_left_app. cbn [fold_left]. fold (nulls_used l). rewrite <- I1.
  unfold step. destruct c as [p v|p v|vs|lim o|lim p v|fs|cs| |]; cbn [try_call nulls_of];
    unfold pb_set, pb_enum, pb_add, pb_page, pb_cursor, pb_set, check_page; cbn [try_call nulls_of pb_flags pb_null pb_reset];
    try (destruct (63 <? p); [split; [reflexivity|exact I2]|]); try (destruct (0 <? qb_limit _); [split; [reflexivity|exact I2]|]); try (split; [reflexivity|]; exact I2 || reflexivity).
  exfalso. apply H, in_or_app. right. left. reflexivity.
Qed.
Lemma name_fresh mm b : qb_hash b = [] -> name_of mm b = pb_text mm b.
Proof. intros H. unfold name_of, pb_name. rewrite H. reflexivity. Qed.

(** ** Decoding the name *)
Definition us : ascii := ascii_of_nat 95.
Definition enum_tok (e : Z * Z) : bytes := fmt_uint 10 (fst e) ++ B "x" ++ fmt_uint 16 (u64 (snd e)).
Definition flag_tok (f : Z) : bytes := B "fx" ++ fmt_int 16 f.
Definition kind_toks (k : paging) : list bytes := match k with ByCursor => [B "c"] | ByOffset => [B "o"] | FirstOrNone => [] end.
Definition null_toks (mm : bytes -> Z) (l : list bytes) : list bytes :=
  if is_empty l then [] else [B "n" ++ fmt_uint 16 (u64 (mm (concat (sort_strings l))))].
Definition toks (mm : bytes -> Z) (b : builder) : list bytes :=
  map enum_tok (qb_enums b) ++ map flag_tok (qb_flags b) ++ kind_toks (kind_of b) ++ null_toks mm (qb_null b).
Definition under (l : list bytes) : bytes := flat_map (fun t => us :: t) l.
Lemma under_app a b : under (a ++ b) = under a ++ under b.
Proof. apply flat_map_app. Qed.
Lemma under_map {A} (f : A -> bytes) l : under (map f l) = flat_map (fun x => us :: f x) l.
Proof. induction l as [|x l IH]; [reflexivity|]. unfold under in *. cbn [map flat_map]. rewrite IH. reflexivity. Qed.
Lemma text_toks mm b : pb_text mm b = qb_name b ++ under ((B "x" ++ fmt_uint 16 (qb_pos b)) :: toks mm b).
Proof.
  unfold pb_text, toks. f_equal. change (under ((B "x" ++ fmt_uint 16 (qb_pos b)) :: ?l)) with ((us :: B "x" ++ fmt_uint 16 (qb_pos b)) ++ under l).
  rewrite !under_app, !under_map.
  assert (K : under (kind_toks (kind_of b)) = (if negb (is_nil (qb_cursor b)) then B "_c" else if 0 <? qb_offset b then B "_o" else [])).
  { unfold kind_of. destruct (negb (is_nil (qb_cursor b))); [reflexivity|]. destruct (0 <? qb_offset b); reflexivity. }
  assert (N : under (null_toks mm (qb_null b)) = (if is_empty (qb_null b) then [] else B "_n" ++ fmt_uint 16 (u64 (mm (concat (sort_strings (qb_null b))))))).
  { unfold null_toks. destruct (is_empty (qb_null b)); [reflexivity|]. unfold under. cbn [flat_map]. rewrite app_nil_r. reflexivity. }
  rewrite K, N. change (us :: B "x" ++ fmt_uint 16 (qb_pos b)) with (B "_x" ++ fmt_uint 16 (qb_pos b)). rewrite <- app_assoc. reflexivity.
Qed.
Lemma split_under s l : Forall (fun w => ~ In us w) l -> split_on us (s ++ under l) = split_on us s ++ l.
Proof.
  intros H. revert s. induction l as [|w l IH]; intros s; [cbn; rewrite !app_nil_r; reflexivity|]. inversion H as [|? ? H1 H2]; subst.
  induction s as [|d s IHs].
  - cbn [app under flat_map]. fold (under l). cbn [split_on]. destruct (ascii_dec us us) as [_|N]; [|congruence]. f_equal.
    rewrite (IH H2 w). rewrite split_on_word by exact H1. reflexivity.
  - cbn [app split_on]. destruct (ascii_dec d us); [rewrite IHs; reflexivity|]. rewrite IHs. pose proof (split_on_nonempty us s). destruct (split_on us s); [congruence|reflexivity].
Qed.
Lemma join_split c s : join [c] (split_on c s) = s.
Proof.
  induction s as [|d s IH]; [reflexivity|]. cbn [split_on]. pose proof (split_on_nonempty c s) as N. destruct (ascii_dec d c) as [->|].
  - rewrite join_cons by exact N. rewrite IH. reflexivity.
  - destruct (split_on c s) as [|w ws]; [congruence|]. destruct ws as [|v ws]; [cbn in *; rewrite IH; reflexivity|].
    rewrite join_cons in * by congruence. cbn [app]. rewrite <- IH. reflexivity.
Qed.
(** Lists made of two kinds of elements split uniquely. *)
Lemma app_class {A} (P : A -> Prop) a1 : forall a2 b1 b2, Forall P a1 -> Forall P a2 -> (forall x r, b1 = x :: r -> ~ P x) -> (forall x r, b2 = x :: r -> ~ P x) ->
  a1 ++ b1 = a2 ++ b2 -> a1 = a2 /\ b1 = b2.
Proof.
  induction a1 as [|x a1 IH]; intros [|y a2] b1 b2 H1 H2 N1 N2 E; cbn [app] in E.
  - split; [reflexivity|exact E].
  - exfalso. subst b1. inversion H2; subst. exact (N1 y _ eq_refl ltac:(assumption)).
  - exfalso. subst b2. inversion H1; subst. exact (N2 x _ eq_refl ltac:(assumption)).
  - injection E as -> E. inversion H1; inversion H2; subst. destruct (IH a2 b1 b2) as [-> ->]; try assumption. split; reflexivity.
Qed.
Definition starts (c : ascii) (w : bytes) : Prop := exists r, w = c :: r.
Definition digit_start (w : bytes) : Prop := exists d r, 0 <= d < 10 /\ w = digit_char d :: r.
Lemma fmt10_start n : 0 <= n -> forall r, digit_start (fmt_uint 10 n ++ r).
Proof.
  intros H r. pose proof (fmt_uint_nonempty 10 n ltac:(lia) H) as N. pose proof (fmt_uint_chars 10 n ltac:(lia) H) as F. destruct (fmt_uint 10 n) as [|c s]; [congruence|].
  inversion F as [|? ? F1 F2]; subst. destruct F1 as (d & Hd & ->). exists d, (s ++ r). split; [lia|reflexivity].
Qed.
Lemma digit_start_not c w : starts c w -> (forall d, 0 <= d < 10 -> c <> digit_char d) -> ~ digit_start w.
Proof. intros [r ->] H (d & s & Hd & E). injection E as E _. exact (H d Hd E). Qed.
Lemma not_digit c : dec_digit c = None -> forall d, 0 <= d < 10 -> c <> digit_char d.
Proof. intros H d Hd ->. rewrite dec_digit_char in H by exact Hd. discriminate. Qed.
Lemma no_us_fmt base n : 2 <= base <= 36 -> 0 <= n -> ~ In us (fmt_uint base n).
Proof.
  intros Hb Hn X. pose proof (fmt_uint_chars base n ltac:(lia) Hn) as F. rewrite Forall_forall in F. destruct (F us X) as (d & Hd & E).
  unfold digit_char, us in E. apply (f_equal nat_of_ascii) in E. destruct (d <? 10) eqn:L.
  - rewrite !nat_ascii_embedding in E by (apply Z.ltb_lt in L; lia). apply Z.ltb_lt in L. lia.
  - rewrite !nat_ascii_embedding in E by lia. apply Z.ltb_ge in L. lia.
Qed.
Lemma u64_range z : 0 <= u64 z. Proof. unfold u64. pose proof (wrap_u_range 64 z ltac:(lia)). lia. Qed.
Lemma no_us_int n : ~ In us (fmt_int 16 n).
Proof.
  unfold fmt_int. destruct (n <? 0) eqn:E; [apply Z.ltb_lt in E|apply Z.ltb_ge in E].
  - intros [X|X]; [discriminate|]. revert X. apply no_us_fmt; lia.
  - apply no_us_fmt; lia.
Qed.
Definition fields_ok (b : builder) : Prop := 0 <= qb_pos b /\ Forall (fun e => 0 <= fst e /\ int32_ok (snd e)) (qb_enums b) /\ Forall int32_ok (qb_flags b).
Lemma toks_no_us mm b : fields_ok b -> Forall (fun w => ~ In us w) ((B "x" ++ fmt_uint 16 (qb_pos b)) :: toks mm b).
Proof.
  intros (H1 & H2 & H3). constructor.
  - intros X. apply in_app_or in X as [[X|[]]|X]; [discriminate|]. revert X. apply no_us_fmt; lia.
  - unfold toks. rewrite !Forall_app. repeat split.
    + apply Forall_map. eapply Forall_impl; [|exact H2]. intros [p v] [P1 P2] X. cbn [fst snd] in *. apply in_app_or in X as [X|X]; [revert X; apply no_us_fmt; [lia|exact P1]|].
      apply in_app_or in X as [[X|[]]|X]; [discriminate|]. revert X. apply no_us_fmt; [lia|apply u64_range].
    + apply Forall_map. apply Forall_forall. intros f _ X. apply in_app_or in X as [X|X]; [|revert X; apply no_us_int].
      destruct X as [X|[X|[]]]; discriminate.
    + destruct (kind_of b); cbn; repeat constructor; intros [X|[]]; discriminate.
    + unfold null_toks. destruct (is_empty _); constructor; [|constructor]. intros X. apply in_app_or in X as [[X|[]]|X]; [discriminate|]. revert X. apply no_us_fmt; [lia|apply u64_range].
Qed.
Lemma toks_not_x mm b : fields_ok b -> Forall (fun w => ~ starts (ascii_of_nat 120) w) (toks mm b).
Proof.
  intros (H1 & H2 & H3). unfold toks. rewrite !Forall_app. repeat split.
  - apply Forall_map. eapply Forall_impl; [|exact H2]. intros [p v] [P1 _] X. cbn [fst] in P1. apply (digit_start_not (ascii_of_nat 120) _ X (not_digit (ascii_of_nat 120) eq_refl)). apply fmt10_start. exact P1.
  - apply Forall_map. apply Forall_forall. intros f _ [r X]. discriminate.
  - destruct (kind_of b); cbn; repeat constructor; intros [r X]; discriminate.
  - unfold null_toks. destruct (is_empty _); constructor; [|constructor]. intros [r X]. discriminate.
Qed.
Lemma fmt_int_inj a b : fmt_int 16 a = fmt_int 16 b -> a = b.
Proof.
  assert (W : forall x n, 0 <= n -> fmt_uint 16 n <> ascii_of_nat 45 :: x).
  { intros x n Hn X. pose proof (fmt_uint_chars 16 n ltac:(lia) Hn) as F. rewrite X in F. inversion F as [|? ? F1 _]; subst. destruct F1 as (d & Hd & E).
    unfold digit_char in E. apply (f_equal nat_of_ascii) in E. destruct (d <? 10); rewrite !nat_ascii_embedding in E by lia; lia. }
  unfold fmt_int. destruct (a <? 0) eqn:Ea, (b <? 0) eqn:Eb; rewrite ?Z.ltb_lt, ?Z.ltb_ge in *; intros E.
  - injection E as E. apply fmt_uint_inj in E; lia.
  - symmetry in E. destruct (W _ _ Eb E).
  - destruct (W _ _ Ea E).
  - apply fmt_uint_inj in E; lia.
Qed.
Lemma map_inj {A C} (f : A -> C) (P : A -> Prop) l : forall l', Forall P l -> Forall P l' -> (forall x y, P x -> P y -> f x = f y -> x = y) -> map f l = map f l' -> l = l'.
Proof.
  induction l as [|x l IH]; intros [|y l'] H H' I E; try discriminate; [reflexivity|]. inversion H; inversion H'; subst. cbn in E. injection E as E1 E2.
  f_equal; [apply I; assumption|apply IH; assumption].
Qed.
Lemma enum_tok_inj x y : 0 <= fst x /\ int32_ok (snd x) -> 0 <= fst y /\ int32_ok (snd y) -> enum_tok x = enum_tok y -> x = y.
Proof.
  destruct x as [p v], y as [p' v']. cbn [fst snd]. intros [Hp Hv] [Hp' Hv'] E. unfold enum_tok in E. cbn [fst snd] in E.
  assert (NX : forall n, 0 <= n -> Forall (fun c => c <> ascii_of_nat 120) (fmt_uint 10 n)).
  { intros n Hn. pose proof (fmt_uint_chars 10 n ltac:(lia) Hn) as F. eapply Forall_impl; [|exact F]. intros c (d & Hd & ->) X. symmetry in X. revert X. apply not_digit; [reflexivity|lia]. }
  destruct (app_class (fun c => c <> ascii_of_nat 120) (fmt_uint 10 p) (fmt_uint 10 p') (B "x" ++ fmt_uint 16 (u64 v)) (B "x" ++ fmt_uint 16 (u64 v')) (NX _ Hp) (NX _ Hp')) as [E1 E2].
  - intros x r X. injection X as <- _. intros Y. apply Y. reflexivity.
  - intros x r X. injection X as <- _. intros Y. apply Y. reflexivity.
  - exact E.
  - apply fmt_uint_inj in E1; [|lia|lia|lia]. apply app_inv_head in E2. apply fmt_uint_inj in E2; [|lia|apply u64_range|apply u64_range].
    subst p'. f_equal. unfold int32_ok in *. rewrite <- (wrap_s_id 64 v), <- (wrap_s_id 64 v') by (cbn; lia). rewrite <- (wrap_s_u 64 v), <- (wrap_s_u 64 v') by lia. unfold u64 in E2. rewrite E2. reflexivity.
Qed.
Lemma toks_split mm b1 b2 : fields_ok b1 -> fields_ok b2 -> toks mm b1 = toks mm b2 ->
  qb_enums b1 = qb_enums b2 /\ qb_flags b1 = qb_flags b2 /\ kind_of b1 = kind_of b2 /\ null_toks mm (qb_null b1) = null_toks mm (qb_null b2).
Proof.
  intros (_ & E1 & F1) (_ & E2 & F2) E. unfold toks in E.
  assert (ND : forall k l, Forall (fun w => ~ digit_start w) (map flag_tok k ++ kind_toks l ++ null_toks mm (qb_null b1)) /\ Forall (fun w => ~ digit_start w) (map flag_tok k ++ kind_toks l ++ null_toks mm (qb_null b2))).
  { intros k l. assert (D : forall nl, Forall (fun w => ~ digit_start w) (map flag_tok k ++ kind_toks l ++ null_toks mm nl)); [|split; apply D]. intros nl. rewrite !Forall_app. repeat split.
    - apply Forall_map, Forall_forall. intros f _. apply (digit_start_not (ascii_of_nat 102)); [eexists; reflexivity|apply not_digit; reflexivity].
    - destruct l; cbn; repeat constructor; [apply (digit_start_not (ascii_of_nat 99))|apply (digit_start_not (ascii_of_nat 111))]; try (eexists; reflexivity); apply not_digit; reflexivity.
    - unfold null_toks. destruct (is_empty nl); constructor; [|constructor]. apply (digit_start_not (ascii_of_nat 110)); [eexists; reflexivity|apply not_digit; reflexivity]. }
  assert (DS : forall es, Forall (fun e => 0 <= fst e /\ int32_ok (snd e)) es -> Forall digit_start (map enum_tok es)).
  { intros es H. apply Forall_map. eapply Forall_impl; [|exact H]. intros [p v] [P _]. apply fmt10_start. exact P. }
  destruct (app_class digit_start _ _ _ _ (DS _ E1) (DS _ E2) ltac:(intros x r X; destruct (ND (qb_flags b1) (kind_of b1)) as [N _]; rewrite X in N; inversion N; assumption)
    ltac:(intros x r X; destruct (ND (qb_flags b2) (kind_of b2)) as [_ N]; rewrite X in N; inversion N; assumption) E) as [G1 G2].
  split; [exact (map_inj enum_tok _ _ _ E1 E2 enum_tok_inj G1)|].
  assert (FS : forall fs, Forall (starts (ascii_of_nat 102)) (map flag_tok fs)) by (intros fs; apply Forall_map, Forall_forall; intros f _; eexists; reflexivity).
  assert (NF : forall k nl x r, kind_toks k ++ null_toks mm nl = x :: r -> ~ starts (ascii_of_nat 102) x).
  { intros k nl x r X [s ->]. destruct k; cbn [kind_toks app] in X; [discriminate|discriminate|]. unfold null_toks in X. destruct (is_empty nl); discriminate. }
  destruct (app_class (starts (ascii_of_nat 102)) _ _ _ _ (FS (qb_flags b1)) (FS (qb_flags b2)) (NF _ _) (NF _ _) G2) as [G3 G4].
  split. { apply (map_inj flag_tok (fun _ => True) _ _); try (apply Forall_forall; intros; exact Logic.I); [|exact G3]. intros x y _ _ X. apply (app_inv_head (B "fx")) in X. apply fmt_int_inj. exact X. }
  unfold null_toks in *. destruct (kind_of b1), (kind_of b2); cbn [kind_toks app] in G4; destruct (is_empty (qb_null b1)), (is_empty (qb_null b2)); try discriminate; (split; [reflexivity|]); try reflexivity; try (injection G4 as G4; rewrite G4; reflexivity).
Qed.
Lemma text_inj mm b1 b2 : fields_ok b1 -> fields_ok b2 ->
  (pb_text mm b1 = pb_text mm b2 <->
   qb_name b1 = qb_name b2 /\ qb_pos b1 = qb_pos b2 /\ qb_enums b1 = qb_enums b2 /\ qb_flags b1 = qb_flags b2 /\ kind_of b1 = kind_of b2 /\
   null_toks mm (qb_null b1) = null_toks mm (qb_null b2)).
Proof.
  intros F1 F2. rewrite !text_toks. split.
  - intros E. apply (f_equal (split_on us)) in E. rewrite !split_under in E by (apply toks_no_us; assumption).
    apply (f_equal (@rev bytes)) in E. rewrite !rev_app_distr in E. cbn [rev] in E. rewrite <- !app_assoc in E. cbn [app] in E.
    assert (NX : forall (v : bytes) (l : list bytes) x r, (B "x" ++ v) :: l = x :: r -> ~ ~ starts (ascii_of_nat 120) x) by (intros v l x r X; injection X as <- _; intros Y; apply Y; eexists; reflexivity).
    destruct (app_class (fun w => ~ starts (ascii_of_nat 120) w) _ _ _ _ (Forall_rev (toks_not_x mm b1 F1)) (Forall_rev (toks_not_x mm b2 F2))
      (NX _ _) (NX _ _) E) as [E1 E2].
    injection E2 as E2 E3. apply (f_equal (@rev bytes)) in E1, E3. rewrite !rev_involutive in E1, E3. apply (f_equal (join [us])) in E3. rewrite !join_split in E3.
    split; [exact E3|]. split; [apply fmt_uint_inj in E2; [exact E2|lia|apply F1|apply F2]|]. apply (toks_split mm); assumption.
  - intros (E1 & E2 & E3 & E4 & E5 & E6). unfold toks. rewrite E1, E2, E3, E4, E5, E6. reflexivity.
Qed.
Lemma inv_fields_ok q b h : inv q b h -> fields_ok b.
Proof.
  intros I. destruct I. split; [lia|]. rewrite i_enums0, i_flags0. split.
  - clear -i_hok0. induction h as [|c h IH]; [constructor|]. inversion i_hok0; subst. unfold enums_used. cbn [flat_map]. apply Forall_app. split; [|apply IH; assumption].
    destruct c; cbn [enums_of]; constructor; [|constructor]. cbn [fst snd]. cbn in H1. unfold uint32_ok in H1. split; [lia|tauto].
  - assert (G : forall acc, Forall int32_ok acc -> Forall int32_ok (fold_left flags_of h acc)); [|apply G; constructor].
    clear -i_hok0. induction h as [|c h IH]; intros acc Ha; [exact Ha|]. inversion i_hok0; subst. cbn [fold_left]. apply IH; [assumption|]. destruct c; try exact Ha. exact H1.
Qed.
