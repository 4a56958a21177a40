(** Property theorems C183: which texts are floating-point numbers. *)
From Verif Require Import GoBase GoBaseFacts IdModel IdSpec FloatModel FloatSpec FloatProofs FloatGrammar FloatGrammarProofs.
From Verif Require XsqlRender.
Open Scope Z_scope.

(** ** C183: Exactly Go's floating-point literals are read *)
(** A text column is stored only if it is a literal (decimal or hexadecimal, with
    underscores between digits only), an infinity or NaN. *)
Theorem C183_grammar : forall s old b, float_scan old (ABytes s) = (b, true) -> float_text s.
Proof. intros s old b H. unfold float_scan in H. destruct (parse_float s) as [f|] eqn:E; [|discriminate H]. exact (parse_grammar s f E). Qed.
Theorem C183_refused : forall s old, ~ float_text s -> float_scan old (ABytes s) = (old, false).
Proof. intros s old N. unfold float_scan. destruct (parse_float s) as [f|] eqn:E; [|reflexivity]. destruct N. exact (parse_grammar s f E). Qed.
(** A literal whose number is in range is stored as the nearest float64, ties to
    even; one beyond the range is refused.  The exponent may be of any size if
    there are at most 2000 mantissa digits. *)
Theorem C183_literal : forall s neg hex ip fp x old, literal s neg hex ip fp x -> Z.abs x < 100000 \/ (length (ip ++ fp) <= 2000)%nat ->
  (too_large (lit_num hex ip fp x) (lit_den hex fp x) -> float_scan old (ABytes s) = (old, false)) /\
  (~ too_large (lit_num hex ip fp x) (lit_den hex fp x) ->
    exists b, float_scan old (ABytes s) = (b, true) /\ nearest neg (signed neg (lit_num hex ip fp x)) (lit_den hex fp x) b).
Proof.
  intros s neg hex ip fp x old L Hx. destruct (literal_number s neg hex ip fp x L Hx) as [N R]. unfold float_scan. split; intros T.
  - apply R in T. rewrite T. reflexivity.
  - destruct (parse_float s) as [b|]; [exists b; split; [reflexivity|exact N]|]. destruct T. apply R. reflexivity.
Qed.
Theorem C183_infinity : forall s neg old, infinity_text s neg -> exists b, float_scan old (ABytes s) = (b, true) /\ infinite b /\ (negative b <-> neg = true).
Proof.
  intros s neg old H. unfold float_scan. rewrite (infinity_parse s neg H). exists (with_sign neg inf_bits). split; [reflexivity|].
  destruct neg; (split; [split; [split; [discriminate|reflexivity]|split; reflexivity]|]); unfold negative, with_sign; split; intros X; try reflexivity; try discriminate X; try discriminate. exfalso. apply X. reflexivity.
Qed.
Theorem C183_nan : forall s old, nan_text s -> exists b, float_scan old (ABytes s) = (b, true) /\ nan b.
Proof.
  intros s old H. unfold float_scan. rewrite (nan_parse s H). exists nan_bits. split; [reflexivity|]. split; [split; [discriminate|reflexivity]|split; [reflexivity|discriminate]].
Qed.
(** JSON: any number of quotes around the text is dropped; nothing and NULL are
    zero, everything else is read as from a column. *)
Definition unquoted (data s : bytes) : Prop :=
  (exists a b, data = repeat dquote a ++ s ++ repeat dquote b) /\
  (s = [] \/ ((exists c r, s = c :: r /\ c <> dquote) /\ (exists r c, s = r ++ [c] /\ c <> dquote))).
Theorem C183_json : forall data s old, unquoted data s ->
  (s = [] \/ s = B "NULL" -> float_unjson old data = (0, true)) /\
  (s <> [] -> s <> B "NULL" -> float_unjson old data = float_scan old (ABytes s)).
Proof.
  intros data s old ((a & b & ->) & Hs).
  assert (Q : forall n, Forall (fun c => in_set [dquote] c = true) (repeat dquote n)) by (induction n; cbn [repeat]; constructor; [reflexivity|assumption]).
  assert (NQ : forall c, c <> dquote -> in_set [dquote] c = false). { intros c N. unfold in_set. cbn [existsb]. destruct (ascii_dec c dquote); [contradiction|reflexivity]. }
  assert (T : trim [dquote] (repeat dquote a ++ s ++ repeat dquote b) = s).
  { apply XsqlRender.trim_bare; [apply Q|apply Q|]. destruct Hs as [->|((c & r & E & N) & (r' & c' & E' & N'))]; [left; reflexivity|right]. split; [exists c, r|exists r', c']; auto. }
  unfold float_unjson. rewrite T. cbv zeta. split.
  - intros [->| ->]; reflexivity.
  - intros N1 N2. rewrite (proj2 (beqb_neq s (B "NULL")) N2). destruct s as [|c s]; [congruence|]. cbn [is_empty orb]. rewrite orb_false_r.
    destruct (beqb (c :: s) (B "0")) eqn:E; [|reflexivity]. apply beqb_eq in E. rewrite E. reflexivity.
Qed.
Theorem C183_json_every : forall data, exists s, unquoted data s.
Proof.
  intros data. destruct (XsqlRender.trim_decomp [dquote] data) as (l & r & E & Fl & Fr & Bm). exists (trim [dquote] data).
  assert (Q : forall l, Forall (fun c => in_set [dquote] c = true) l -> l = repeat dquote (length l)).
  { intros k. induction 1 as [|c k H _ IH]; [reflexivity|]. cbn [length repeat]. rewrite <- IH. f_equal. unfold in_set in H. cbn [existsb] in H. destruct (ascii_dec c dquote); [assumption|discriminate H]. }
  assert (NQ : forall c, in_set [dquote] c = false -> c <> dquote). { intros c H ->. discriminate H. }
  split; [exists (length l), (length r); rewrite <- (Q l Fl), <- (Q r Fr); exact E|].
  destruct Bm as [H|((c & x & E1 & H1) & (y & d & E2 & H2))]; [left; exact H|right]. split; [exists c, x|exists y, d]; auto.
Qed.

Example C183_ex : literal (B "-0X_1.8_0p-1_0") true true (B "1") (B "80") (-10) /\ lit_num true (B "1") (B "80") (-10) = 384 /\
  lit_den true (B "80") (-10) = 256 * 1024 /\ float_scan 0 (ABytes (B "-0X_1.8_0p-1_0")) = (2 ^ 63 + 1013 * 2 ^ 52 + 2 ^ 51, true) /\
  literal (B "1_000.5e-999999") false false (B "1000") (B "5") (-999999) /\ float_scan 7 (ABytes (B "1_000.5e-999999")) = (0, true) /\
  ~ float_text (B "1__0") /\ float_scan 7 (ABytes (B "0x1")) = (7, false) /\ float_scan 7 (ABytes (B "+nan")) = (7, false) /\ infinity_text (B "-iNf") true /\ unquoted (B """""NULL") (B "NULL").
Proof.
  assert (Hx : literal (B "-0X_1.8_0p-1_0") true true (B "1") (B "80") (-10)).
  { exists (B "-"), (B "0X"), (B "_1.8_0p-1_0"). split; [reflexivity|]. split; [constructor|]. split; [right; reflexivity|]. split; [apply separated_ok; reflexivity|].
    exists (B ".80"), (B "p-10"). split; [reflexivity|]. split; [repeat constructor; vm_compute; lia|]. split; [apply (fp_dot true (B "80")); repeat constructor; vm_compute; lia|]. split; [discriminate|].
    apply (ep_exp true _ (B "-") true (B "10")); [left; reflexivity|constructor|]. split; [discriminate|repeat constructor; vm_compute; lia]. }
  assert (Hd : literal (B "1_000.5e-999999") false false (B "1000") (B "5") (-999999)).
  { exists [], [], (B "1_000.5e-999999"). split; [reflexivity|]. split; [constructor|]. split; [reflexivity|]. split; [apply separated_ok; reflexivity|].
    exists (B ".5"), (B "e-999999"). split; [reflexivity|]. split; [repeat constructor; vm_compute; lia|]. split; [apply (fp_dot false (B "5")); repeat constructor; vm_compute; lia|]. split; [discriminate|].
    apply (ep_exp false _ (B "-") true (B "999999")); [left; reflexivity|constructor|]. split; [discriminate|repeat constructor; vm_compute; lia]. }
  split; [exact Hx|]. split; [reflexivity|]. split; [reflexivity|]. split; [vm_compute; reflexivity|]. split; [exact Hd|].
  split; [unfold float_scan; rewrite (parse_literal _ _ _ _ _ _ Hd) by (right; vm_compute; lia); rewrite rf_small; [reflexivity|lia|vm_compute; discriminate|vm_compute; reflexivity|]|].
  { apply Z.lt_le_trans with (2 ^ 1100); [vm_compute; reflexivity|]. apply Z.le_trans with (2 ^ 1000000); [apply Z.pow_le_mono_r; vm_compute; [reflexivity|discriminate]|].
    change (- (-999999 - 1 * Z.of_nat (length (B "5")))) with 1000000. apply Z.pow_le_mono_l. lia. }
  split.
  { intros [(neg & hex & ip & fp & x & t & q & u & E & Ht & Hq & Sp & _)|[(neg & t & u & E & Ht & [X|X])|N]].
    - assert (t = []) by (inversion Ht; subst; [reflexivity|discriminate E|discriminate E]). subst t. cbn [app] in E. destruct hex; cbn in Hq; [destruct Hq as [->| ->]; discriminate E|]. subst q. cbn [app] in E. subst u.
      destruct (Sp (B "1") (B "_0") eq_refl) as [_ (c & b' & X & D)]. injection X as <- _. exact (under_not false D).
    - inversion Ht; subst; [cbn [app] in E; subst u|discriminate E|discriminate E]. inversion X as [|? ? ? ? C]; subst. destruct C as [C|C]; discriminate C.
    - inversion Ht; subst; [cbn [app] in E; subst u|discriminate E|discriminate E]. inversion X as [|? ? ? ? C]; subst. destruct C as [C|C]; discriminate C.
    - inversion N as [|? ? ? ? C]; subst. destruct C as [C|C]; discriminate C. }
  split; [reflexivity|]. split; [reflexivity|]. split.
  { exists (B "-"), (B "iNf"). split; [reflexivity|]. split; [constructor|]. left. constructor; [left; reflexivity|constructor; [right; reflexivity|constructor; [left; reflexivity|constructor]]]. }
  split; [exists 2%nat, 0%nat; reflexivity|]. right. split; [exists (ascii_of_nat 78), (B "ULL")|exists (B "NUL"), (ascii_of_nat 76)]; (split; [reflexivity|discriminate]).
Qed.

(** ** Assumptions *)
Print Assumptions C183_grammar.
Print Assumptions C183_refused.
Print Assumptions C183_literal.
Print Assumptions C183_infinity.
Print Assumptions C183_nan.
Print Assumptions C183_json.
Print Assumptions C183_json_every.
