(** Proofs about connection strings. *)
From Verif Require Import GoBase GoBaseFacts UrlModel UrlSpec.
From Coq Require Import Lia.

(** ** Characters: everything about one character is decided by looking at all 256 *)
Lemma ch_code c : ch (code c) = c. Proof. apply ascii_nat_embedding. Qed.
Lemma all_chars (P : ascii -> bool) : forallb (fun n => P (ascii_of_nat n)) (seq 0 256) = true -> forall c, P c = true.
Proof.
  intros H c. rewrite forallb_forall in H. specialize (H (nat_of_ascii c)). rewrite ascii_nat_embedding in H. apply H. apply in_seq. split; [lia|]. apply (nat_ascii_bounded c).
Qed.
Lemma in_set_in cs c : in_set cs c = true <-> In c cs.
Proof.
  unfold in_set. rewrite existsb_exists. split.
  - intros (d & Hd & E). destruct (ascii_dec c d) as [->|]; [exact Hd|discriminate].
  - intros H. exists c. split; [exact H|]. destruct (ascii_dec c c); congruence.
Qed.
Definition letterb (c : ascii) : bool := oneof "abcdefghijklmnopqrstuvwxyzABCDEFGHIJKLMNOPQRSTUVWXYZ" c.
Definition digitb (c : ascii) : bool := oneof "0123456789" c.
Definition unreservedb c : bool := letterb c || digitb c || oneof "-._~" c.
Definition sub_delimb c : bool := oneof "!$&'()*+,;=" c.
Lemma oneof_chars s c : oneof s c = true <-> chars s c. Proof. apply in_set_in. Qed.
Lemma letterb_iff c : letterb c = true <-> letter c. Proof. apply oneof_chars. Qed.
Lemma digitb_iff c : digitb c = true <-> digit c. Proof. apply oneof_chars. Qed.
Lemma unreservedb_iff c : unreservedb c = true <-> unreserved c.
Proof. unfold unreservedb, unreserved. rewrite !orb_true_iff, letterb_iff, digitb_iff, oneof_chars. tauto. Qed.
Lemma sub_delimb_iff c : sub_delimb c = true <-> sub_delim c. Proof. apply oneof_chars. Qed.
(** A statement about characters from a check of all of them *)
Lemma by_check (P Q : ascii -> bool) : forallb (fun n => negb (P (ascii_of_nat n)) || Q (ascii_of_nat n)) (seq 0 256) = true -> forall c, P c = true -> Q c = true.
Proof.
  intros H c HP. pose proof (all_chars (fun c => negb (P c) || Q c) H c) as X. cbv beta in X. rewrite HP in X. exact X.
Qed.
Lemma letter_model c : letter c -> is_letter c = true.
Proof. intros H. apply letterb_iff in H. revert c H. apply by_check. vm_compute. reflexivity. Qed.
Lemma digit_model c : digit c -> is_digit c = true.
Proof. intros H. apply digitb_iff in H. revert c H. apply by_check. vm_compute. reflexivity. Qed.

(** ** Hexadecimal digits *)
Lemma unhex_digit c n : hex_digit c n -> unhex c = Some n.
Proof.
  unfold hex_digit. intros H. assert (N : (n < 16)%nat). { destruct H as [H|H]; apply (f_equal (fun o => match o with Some _ => true | None => false end)) in H; destruct (le_lt_dec 16 n) as [L|L]; [|exact L| |exact L]; exfalso; rewrite (proj2 (nth_error_None _ n)) in H; try discriminate H; exact L. }
  do 16 (destruct n as [|n]; [destruct H as [H|H]; injection H as <-; reflexivity|]). lia.
Qed.
Definition hexb (c : ascii) : bool := oneof "0123456789abcdefABCDEF" c.
Lemma hex_digit_char c n : hex_digit c n -> hexb c = true.
Proof.
  intros H. apply oneof_chars. unfold chars. destruct H as [H|H]; apply nth_error_In in H; unfold B in *; cbn [list_ascii_of_string In] in *; tauto.
Qed.

(** ** Encodings *)
Definition pct (c : ascii) : Prop := c = ch 37 \/ c = ch 43 \/ hexb c = true.
Lemma encodes_chars (safe : ascii -> Prop) plus e v : encodes safe plus e v -> forall c, In c e -> safe c \/ c = ch 37 \/ (plus /\ c = ch 43) \/ hexb c = true.
Proof.
  induction 1 as [|c e v S H IH|e v P H IH|a b x y e v A C H IH]; intros d I.
  - destruct I.
  - destruct I as [<-|I]; auto.
  - destruct I as [<-|I]; auto.
  - destruct I as [<-|[<-|[<-|I]]]; auto; right; right; right; eapply hex_digit_char; eassumption.
Qed.
Lemma unescape_encodes m (safe : ascii -> Prop) (plus : Prop) e v : is_host m = false -> (plus -> is_query m = true) ->
  (forall c, safe c -> c <> ch 37 /\ (c = ch 43 -> is_query m = false)) -> encodes safe plus e v -> unescape m e = Some v.
Proof.
  intros Hm Hp Hs. induction 1 as [|c e v S H IH|e v P H IH|a b x y e v A C H IH]; cbn [unescape].
  - reflexivity.
  - destruct (Hs c S) as [N1 N2]. destruct (Ascii.eqb_spec c (ch 37)); [congruence|]. rewrite Hm. cbn [andb].
    destruct (Ascii.eqb_spec c (ch 43)) as [E|E]; [rewrite (N2 E)|]; cbn [andb]; rewrite IH; reflexivity.
  - change (Ascii.eqb (ch 43) (ch 37)) with false. change (Ascii.eqb (ch 43) (ch 43)) with true. rewrite (Hp P). cbn [andb]. rewrite IH. reflexivity.
  - change (Ascii.eqb (ch 37) (ch 37)) with true. cbv iota. rewrite (unhex_digit _ _ A), (unhex_digit _ _ C), Hm. cbn [andb]. rewrite IH. reflexivity.
Qed.
Lemma unescape_plain m s : is_host m = false -> Forall (fun c => c <> ch 37 /\ (c = ch 43 -> is_query m = false)) s -> unescape m s = Some s.
Proof.
  intros Hm H. induction H as [|c s [N1 N2] H IH]; [reflexivity|]. cbn [unescape]. destruct (Ascii.eqb_spec c (ch 37)); [congruence|]. rewrite Hm. cbn [andb].
  destruct (Ascii.eqb_spec c (ch 43)) as [E|E]; [rewrite (N2 E)|]; cbn [andb]; rewrite IH; reflexivity.
Qed.
Lemma unescape_host s : Forall (fun c => host_char c = true) s -> unescape EHost s = Some s.
Proof.
  intros H. induction H as [|c s N H IH]; [reflexivity|]. cbn [unescape is_host is_query andb]. rewrite N, andb_false_r.
  destruct (Ascii.eqb_spec c (ch 37)) as [->|_]; [discriminate N|]. rewrite andb_false_r. cbn [negb]. rewrite IH. reflexivity.
Qed.

(** ** Cutting *)
Lemma cut_none c s : ~ In c s -> cut c s = None.
Proof.
  induction s as [|x r IH]; intros H; [reflexivity|]. cbn [cut]. destruct (Ascii.eqb_spec x c) as [->|N]; [destruct H; left; reflexivity|].
  rewrite IH; [reflexivity|]. intros I. apply H. right. exact I.
Qed.
Lemma cut_some c a b : ~ In c a -> cut c (a ++ c :: b) = Some (a, b).
Proof.
  induction a as [|x r IH]; intros H; cbn [cut app]; [rewrite Ascii.eqb_refl; reflexivity|].
  destruct (Ascii.eqb_spec x c) as [->|N]; [destruct H; left; reflexivity|]. rewrite IH; [reflexivity|]. intros I. apply H. right. exact I.
Qed.
Lemma cut_last_none c s : ~ In c s -> cut_last c s = None.
Proof.
  induction s as [|x r IH]; intros H; [reflexivity|]. cbn [cut_last]. rewrite IH by (intros I; apply H; right; exact I). destruct (Ascii.eqb_spec x c) as [->|N]; [destruct H; left; reflexivity|reflexivity].
Qed.
Lemma cut_last_some c a b : ~ In c b -> cut_last c (a ++ c :: b) = Some (a, b).
Proof.
  intros H. induction a as [|x r IH]; cbn [cut_last app]; [rewrite (cut_last_none c b H), Ascii.eqb_refl; reflexivity|]. rewrite IH. reflexivity.
Qed.
Lemma cut_inv c s a b : cut c s = Some (a, b) -> s = a ++ c :: b /\ ~ In c a.
Proof.
  revert a b. induction s as [|x r IH]; cbn [cut]; intros a b E; [discriminate E|]. destruct (Ascii.eqb_spec x c) as [->|N]; [injection E as <- <-; split; [reflexivity|intros []]|].
  destruct (cut c r) as [[a' b']|]; [|discriminate E]. injection E as <- <-. destruct (IH _ _ eq_refl) as [-> Hn]. split; [reflexivity|]. intros [->|I]; [congruence|exact (Hn I)].
Qed.
Lemma cut_none_inv c s : cut c s = None -> ~ In c s.
Proof.
  induction s as [|x r IH]; cbn [cut]; intros E; [intros []|]. destruct (Ascii.eqb_spec x c) as [->|N]; [discriminate E|]. destruct (cut c r) as [[a' b']|]; [discriminate E|]. intros [->|I]; [congruence|exact (IH eq_refl I)].
Qed.
Lemma before_none c s : ~ In c s -> before c s = s. Proof. intros H. unfold before. rewrite cut_none by exact H. reflexivity. Qed.
Lemma after_none c s : ~ In c s -> after c s = []. Proof. intros H. unfold after. rewrite cut_none by exact H. reflexivity. Qed.
Lemma before_some c a b : ~ In c a -> before c (a ++ c :: b) = a. Proof. intros H. unfold before. rewrite cut_some by exact H. reflexivity. Qed.
Lemma after_some c a b : ~ In c a -> after c (a ++ c :: b) = b. Proof. intros H. unfold after. rewrite cut_some by exact H. reflexivity. Qed.
Lemma has_in c s : has c s = true <-> In c s.
Proof. unfold has. rewrite existsb_exists. split; [intros (d & I & E); apply Ascii.eqb_eq in E; subst; exact I|intros I; exists c; split; [exact I|apply Ascii.eqb_refl]]. Qed.
Lemma has_not c s : ~ In c s -> has c s = false.
Proof. intros H. destruct (has c s) eqn:E; [apply has_in in E; contradiction|reflexivity]. Qed.

(** ** Scheme *)
Lemma scheme_run r rest : Forall (fun c => letter c \/ digit c \/ chars "+-." c) r -> forall seen, seen <> [] -> scheme_loop seen (r ++ ch 58 :: rest) = Some (rev seen ++ r, rest).
Proof.
  induction 1 as [|c r H F IH]; intros seen N; cbn [app scheme_loop].
  - change (is_letter (ch 58)) with false. change (is_digit (ch 58) || oneof "+-." (ch 58)) with false. change (Ascii.eqb (ch 58) (ch 58)) with true. destruct seen; [congruence|]. cbn [is_empty]. rewrite app_nil_r. reflexivity.
  - assert (X : scheme_loop (c :: seen) (r ++ ch 58 :: rest) = Some (rev seen ++ c :: r, rest)). { rewrite IH by discriminate. cbn [rev]. rewrite <- app_assoc. reflexivity. }
    destruct (is_letter c) eqn:L; [exact X|]. destruct H as [H|H]; [rewrite (letter_model _ H) in L; discriminate L|].
    assert (D : is_digit c || oneof "+-." c = true). { destruct H as [H|H]; [rewrite (digit_model _ H); reflexivity|]. apply oneof_chars in H. rewrite H. apply orb_true_r. }
    rewrite D. destruct seen; [congruence|]. cbn [is_empty]. exact X.
Qed.
Lemma get_scheme_ok s rest : scheme_text s -> get_scheme (s ++ ch 58 :: rest) = Some (s, rest).
Proof.
  destruct s as [|c r]; [intros []|]. intros [L F]. unfold get_scheme. cbn [app scheme_loop]. rewrite (letter_model _ L). rewrite (scheme_run r rest F [c]) by discriminate. reflexivity.
Qed.

(** ** Cleaning *)
Lemma trim_none cs s : Forall (fun c => ~ In c cs) s -> trim cs s = s.
Proof.
  intros H. assert (T : forall l, Forall (fun c => ~ In c cs) l -> trim_left cs l = l).
  { intros l Hl. destruct l as [|c r]; [reflexivity|]. apply trim_left_head. inversion Hl as [|? ? N _]; subst. destruct (in_set cs c) eqn:E; [apply in_set_in in E; contradiction|reflexivity]. }
  unfold trim, trim_right. rewrite (T s H), (T (rev s)) by (apply Forall_rev; exact H). apply rev_involutive.
Qed.
Lemma clean_none s : Forall (fun c => ~ In c (ch 34 :: spaces)) s -> clean_ds s = s.
Proof.
  intros H. unfold clean_ds. rewrite (trim_none [ch 34]), (trim_none spaces); [reflexivity| |]; (eapply Forall_impl; [|exact H]); cbn; intros c N I; apply N; cbn [In] in *; tauto.
Qed.

(** ** Parsing scheme://authority/path?query *)
Definition quietb (c : ascii) : bool := negb (is_ctl c) && negb (oneof "# """ c).
Definition in_userb c : bool := unreservedb c || sub_delimb c.
Definition in_passwordb c : bool := in_userb c || Ascii.eqb c (ch 58).
Definition in_keyb c : bool := unreservedb c || oneof "!$'()*,/:?@" c.
Definition in_valueb c : bool := in_keyb c || Ascii.eqb c (ch 61).
Definition in_pathb c : bool := unreservedb c || sub_delimb c || oneof "/:@" c.
Lemma in_userb_iff c : in_userb c = true <-> in_user c. Proof. unfold in_userb, in_user. rewrite orb_true_iff, unreservedb_iff, sub_delimb_iff. tauto. Qed.
Lemma in_passwordb_iff c : in_passwordb c = true <-> in_password c. Proof. unfold in_passwordb, in_password. rewrite orb_true_iff, in_userb_iff, Ascii.eqb_eq. tauto. Qed.
Lemma in_keyb_iff c : in_keyb c = true <-> in_key c. Proof. unfold in_keyb, in_key. rewrite orb_true_iff, unreservedb_iff, oneof_chars. tauto. Qed.
Lemma in_valueb_iff c : in_valueb c = true <-> in_value c. Proof. unfold in_valueb, in_value. rewrite orb_true_iff, in_keyb_iff, Ascii.eqb_eq. tauto. Qed.
Lemma in_pathb_iff c : in_pathb c = true <-> unreserved c \/ sub_delim c \/ chars "/:@" c. Proof. unfold in_pathb. rewrite !orb_true_iff, unreservedb_iff, sub_delimb_iff, oneof_chars. tauto. Qed.

(** What is in the part of a text: a boolean on its characters *)
Lemma quiet_facts s : Forall (fun c => quietb c = true) s -> existsb is_ctl s = false /\ ~ In (ch 35) s /\ clean_ds s = s.
Proof.
  intros H. rewrite Forall_forall in H. split; [|split].
  - apply not_true_iff_false. rewrite existsb_exists. intros (c & I & E). specialize (H c I). unfold quietb in H. rewrite E in H. discriminate H.
  - intros I. specialize (H _ I). discriminate H.
  - apply clean_none. apply Forall_forall. intros c I M. specialize (H c I). cbn [In spaces] in M. repeat (destruct M as [<-|M]; [discriminate H|]). exact M.
Qed.
Lemma parse_text lit sch auth path t q : scheme_text sch -> ~ In (ch 35) (sch ++ auth ++ path ++ t) -> existsb is_ctl (sch ++ auth ++ path ++ t) = false ->
  ~ In (ch 63) auth -> ~ In (ch 47) auth -> ~ In (ch 63) path -> ~ In (ch 37) path -> (path = [] \/ exists r, path = ch 47 :: r) -> (t = [] /\ q = [] \/ t = ch 63 :: q) ->
  parse_url lit (sch ++ B "://" ++ auth ++ path ++ t) =
    match parse_authority lit (map lower_ascii sch) auth with Some (ui, h) => Some (mkUrl (map lower_ascii sch) ui h q) | None => None end.
Proof.
  intros S N35 Ctl A63 A47 P63 P37 P T.
  assert (F35 : ~ In (ch 35) (sch ++ B "://" ++ auth ++ path ++ t)). { rewrite !in_app_iff in N35. rewrite !in_app_iff. unfold B. cbn [list_ascii_of_string In]. intuition discriminate. }
  assert (Fctl : existsb is_ctl (sch ++ B "://" ++ auth ++ path ++ t) = false). { rewrite !existsb_app in Ctl. rewrite !existsb_app. apply orb_false_iff in Ctl. destruct Ctl as [-> Ctl]. change (existsb is_ctl (B "://")) with false. exact Ctl. }
  unfold parse_url. rewrite (before_none _ _ F35), (after_none _ _ F35). cbn [unescape]. unfold parse_main. rewrite Fctl.
  assert (St : beqb (sch ++ B "://" ++ auth ++ path ++ t) (B "*") = false). { apply beqb_neq. destruct sch as [|c0 r0]; [destruct S|]. intros E. cbn [app] in E. unfold B in E. cbn [list_ascii_of_string] in E. injection E as _ E. destruct r0; discriminate E. }
  rewrite St. change (B "://" ++ auth ++ path ++ t) with (ch 58 :: (B "//" ++ auth ++ path ++ t)). rewrite (get_scheme_ok _ _ S).
  assert (Q63 : ~ In (ch 63) (B "//" ++ auth ++ path)). { rewrite !in_app_iff. unfold B. cbn [list_ascii_of_string In]. intuition discriminate. }
  assert (E1 : before (ch 63) (B "//" ++ auth ++ path ++ t) = B "//" ++ auth ++ path /\ after (ch 63) (B "//" ++ auth ++ path ++ t) = q).
  { destruct T as [[-> ->]| ->]; [rewrite app_nil_r; split; [apply before_none|apply after_none]; exact Q63|].
    replace (B "//" ++ auth ++ path ++ ch 63 :: q) with ((B "//" ++ auth ++ path) ++ ch 63 :: q) by (rewrite <- !app_assoc; reflexivity). split; [apply before_some|apply after_some]; exact Q63. }
  destruct E1 as [-> ->]. unfold parse_rest.
  change (has_prefix (B "/") (B "//" ++ auth ++ path)) with true. change (has_prefix (B "//") (B "//" ++ auth ++ path)) with true. cbn [negb andb].
  assert (Se : is_empty (map lower_ascii sch) = false) by (destruct sch; [destruct S|reflexivity]). rewrite Se. cbn [negb orb].
  change (skipn 2 (B "//" ++ auth ++ path)) with (auth ++ path).
  assert (E2 : before (ch 47) (auth ++ path) = auth /\ match cut (ch 47) (auth ++ path) with Some (_, p) => ch 47 :: p | None => [] end = path).
  { destruct P as [->|[r ->]]; [rewrite app_nil_r, (before_none _ _ A47), (cut_none _ _ A47)|rewrite (before_some _ _ _ A47), (cut_some _ _ _ A47)]; split; reflexivity. }
  destruct E2 as [-> ->].
  assert (U : unescape EPath path = Some path). { apply unescape_plain; [reflexivity|]. apply Forall_forall. intros c I. split; [intros ->; contradiction|reflexivity]. }
  rewrite U. destruct (parse_authority lit (map lower_ascii sch) auth) as [[ui h]|]; reflexivity.
Qed.

(** ** Hosts *)
Lemma host_facts h : host_text h -> Forall (fun c => quietb c = true /\ host_char c = true /\ ~ In c [ch 47; ch 63; ch 64; ch 91]) h /\
  forall lit sch, parse_host lit sch h = Some h.
Proof.
  intros (name & N & H).
  assert (C : forall c, in_userb c = true -> (quietb c && host_char c && negb (oneof "/?@[:" c)) = true). { apply by_check. vm_compute. reflexivity. }
  assert (CD : forall c, digitb c = true -> (quietb c && host_char c && is_digit c && negb (oneof "/?@[:" c)) = true). { apply by_check. vm_compute. reflexivity. }
  assert (N' : Forall (fun c => (quietb c && host_char c && negb (oneof "/?@[:" c)) = true) name). { eapply Forall_impl; [|exact N]. intros c Hc. apply C. apply in_userb_iff. exact Hc. }
  assert (X : forall c, (quietb c && host_char c && negb (oneof "/?@[:" c)) = true -> quietb c = true /\ host_char c = true /\ ~ In c [ch 47; ch 63; ch 64; ch 91] /\ c <> ch 58).
  { intros c Hc. rewrite !andb_true_iff, negb_true_iff in Hc. destruct Hc as [[H1 H2] H3]. split; [exact H1|]. split; [exact H2|].
    assert (Z : forall d, In d (B "/?@[:") -> c <> d). { intros d I ->. apply (oneof_chars "/?@[:") in I. congruence. }
    split; [|apply Z; vm_compute; tauto]. intros I. cbn [In] in I. destruct I as [I|[I|[I|[I|I]]]]; try exact I; symmetry in I; revert I; apply Z; vm_compute; tauto. }
  assert (NF : Forall (fun c => quietb c = true /\ host_char c = true /\ ~ In c [ch 47; ch 63; ch 64; ch 91] /\ c <> ch 58) name) by (eapply Forall_impl; [|exact N']; exact X).
  assert (N58 : ~ In (ch 58) name). { intros I. rewrite Forall_forall in NF. apply (NF _ I). reflexivity. }
  destruct H as [->|(port & P & ->)].
  - split; [eapply Forall_impl; [|exact NF]; cbv beta; intros; tauto|]. intros lit sch. unfold parse_host.
    assert (N91 : ~ In (ch 91) name). { intros I. rewrite Forall_forall in NF. destruct (NF _ I) as (_ & _ & X1 & _). apply X1. cbn. tauto. }
    rewrite (has_not _ _ N91), (cut_last_none _ _ N58), (cut_none _ _ N58). cbn [option_map]. destruct (is_pg sch); (apply unescape_host; eapply Forall_impl; [|exact NF]; cbv beta; intros; tauto).
  - assert (P' : Forall (fun c => (quietb c && host_char c && negb (oneof "/?@[:" c)) = true /\ is_digit c = true) port).
    { eapply Forall_impl; [|exact P]. intros c Hc. apply digitb_iff in Hc. apply CD in Hc. rewrite !andb_true_iff in *. tauto. }
    assert (P58 : ~ In (ch 58) port). { intros I. rewrite Forall_forall in P'. destruct (P' _ I) as [E _]. discriminate E. }
    assert (F : Forall (fun c => quietb c = true /\ host_char c = true /\ ~ In c [ch 47; ch 63; ch 64; ch 91]) (name ++ ch 58 :: port)).
    { apply Forall_app. split; [eapply Forall_impl; [|exact NF]; cbv beta; intros; tauto|]. constructor; [repeat split; cbn; intuition discriminate|]. eapply Forall_impl; [|exact P']. intros c [Hc _]. apply X in Hc. tauto. }
    split; [exact F|]. intros lit sch. unfold parse_host.
    assert (N91 : ~ In (ch 91) (name ++ ch 58 :: port)). { intros I. rewrite Forall_forall in F. apply (F _ I). cbn. tauto. }
    rewrite (has_not _ _ N91), (cut_last_some _ _ _ P58), (cut_some _ _ _ N58). cbn [option_map snd].
    assert (D : forallb is_digit port = true) by (apply forallb_forall; intros c I; rewrite Forall_forall in P'; apply (P' _ I)).
    destruct (is_pg sch); rewrite D; (apply unescape_host; eapply Forall_impl; [|exact F]; cbv beta; intros; tauto).
Qed.

(** ** User and password *)
Definition user_textb c : bool := quietb c && user_char c && negb (oneof "/?@" c).
Lemma enc_user e v : writes_user e v -> unescape EUser e = Some v /\ Forall (fun c => user_textb c = true /\ c <> ch 58) e.
Proof.
  intros H. split.
  - refine (unescape_encodes EUser in_user False e v eq_refl _ _ H); [intros []|]. intros c S. split; [|reflexivity]. intros ->. apply in_userb_iff in S. discriminate S.
  - apply Forall_forall. intros c I. assert (X : in_userb c || Ascii.eqb c (ch 37) || hexb c = true).
    { destruct (encodes_chars _ _ _ _ H c I) as [S|[->|[[[] _]|S]]]; [apply in_userb_iff in S; rewrite S; reflexivity|reflexivity|rewrite S; apply orb_true_r]. }
    assert (C : user_textb c && negb (Ascii.eqb c (ch 58)) = true). { revert c I X. intros c _. revert c. apply (by_check (fun c => in_userb c || Ascii.eqb c (ch 37) || hexb c)). vm_compute. reflexivity. }
    apply andb_true_iff in C. destruct C as [C D]. split; [exact C|]. intros ->. discriminate D.
Qed.
Lemma enc_password e v : writes_password e v -> unescape EUser e = Some v /\ Forall (fun c => user_textb c = true) e.
Proof.
  intros H. split.
  - refine (unescape_encodes EUser in_password False e v eq_refl _ _ H); [intros []|]. intros c S. split; [|reflexivity]. intros ->. apply in_passwordb_iff in S. discriminate S.
  - apply Forall_forall. intros c I. assert (X : in_passwordb c || Ascii.eqb c (ch 37) || hexb c = true).
    { destruct (encodes_chars _ _ _ _ H c I) as [S|[->|[[[] _]|S]]]; [apply in_passwordb_iff in S; rewrite S; reflexivity|reflexivity|rewrite S; apply orb_true_r]. }
    revert c I X. intros c _. revert c. apply (by_check (fun c => in_passwordb c || Ascii.eqb c (ch 37) || hexb c)). vm_compute. reflexivity.
Qed.

(** ** Parameters *)
Lemma enc_param e kv : writes_param e kv -> query_part e = [kv] /\ Forall (fun c => quietb c = true /\ c <> ch 38) e.
Proof.
  intros (ek & ev & K & V & ->).
  assert (UK : unescape EQuery ek = Some (fst kv)). { refine (unescape_encodes EQuery in_key True _ _ eq_refl _ _ K); [reflexivity|]. intros c S. apply in_keyb_iff in S. split; [intros ->; discriminate S|intros ->; discriminate S]. }
  assert (UV : unescape EQuery ev = Some (snd kv)). { refine (unescape_encodes EQuery in_value True _ _ eq_refl _ _ V); [reflexivity|]. intros c S. apply in_valueb_iff in S. split; [intros ->; discriminate S|intros ->; discriminate S]. }
  assert (CK : Forall (fun c => (quietb c && negb (oneof "&;=" c)) = true) ek).
  { apply Forall_forall. intros c I. assert (X : in_keyb c || oneof "%+" c || hexb c = true).
    { destruct (encodes_chars _ _ _ _ K c I) as [S|[->|[[_ ->]|S]]]; [apply in_keyb_iff in S; rewrite S; reflexivity|reflexivity|reflexivity|rewrite S; apply orb_true_r]. }
    revert c I X. intros c _. revert c. apply (by_check (fun c => in_keyb c || oneof "%+" c || hexb c)). vm_compute. reflexivity. }
  assert (CV : Forall (fun c => (quietb c && negb (oneof "&;" c)) = true) ev).
  { apply Forall_forall. intros c I. assert (X : in_valueb c || oneof "%+" c || hexb c = true).
    { destruct (encodes_chars _ _ _ _ V c I) as [S|[->|[[_ ->]|S]]]; [apply in_valueb_iff in S; rewrite S; reflexivity|reflexivity|reflexivity|rewrite S; apply orb_true_r]. }
    revert c I X. intros c _. revert c. apply (by_check (fun c => in_valueb c || oneof "%+" c || hexb c)). vm_compute. reflexivity. }
  rewrite Forall_forall in CK, CV. split.
  - unfold query_part. rewrite has_not.
    2:{ rewrite in_app_iff. cbn [In]. intros [I|[I|I]]; [specialize (CK _ I)|discriminate I|specialize (CV _ I)]; discriminate. }
    destruct (is_empty (ek ++ ch 61 :: ev)) eqn:E; [apply is_empty_true in E; destruct ek; discriminate E|].
    assert (N : ~ In (ch 61) ek) by (intros I; specialize (CK _ I); discriminate CK).
    rewrite (before_some _ _ _ N), (after_some _ _ _ N), UK, UV. destruct kv; reflexivity.
  - apply Forall_forall. intros c I. rewrite in_app_iff in I. cbn [In] in I. destruct I as [I|[<-|I]]; [specialize (CK _ I)|split; [reflexivity|discriminate]|specialize (CV _ I)].
    + apply andb_true_iff in CK. destruct CK as [C1 C2]. split; [exact C1|]. intros ->. discriminate C2.
    + apply andb_true_iff in CV. destruct CV as [C1 C2]. split; [exact C1|]. intros ->. discriminate C2.
Qed.
Lemma join_chars (P : ascii -> Prop) c ws : P c -> Forall (Forall P) ws -> Forall P (join [c] ws).
Proof.
  intros Hc H. induction H as [|w ws Hw H IH]; [constructor|]. destruct ws as [|w' ws]; [exact Hw|]. rewrite join_cons by discriminate. rewrite !Forall_app. repeat split; auto.
Qed.
Lemma written_length es l : Forall2 writes_param es l -> length es = length l.
Proof. induction 1; cbn [length]; congruence. Qed.
Lemma query_pairs_written es l : Forall2 writes_param es l -> (Z.of_nat (length l) <= max_params)%Z -> query_pairs (join [ch 38] es) = l.
Proof.
  intros H L. unfold query_pairs. destruct es as [|e es].
  - inversion H; subst. reflexivity.
  - rewrite split_join.
    + rewrite (written_length _ _ H). destruct (Z.ltb_spec max_params (Z.of_nat (length l))) as [X|X]; [lia|].
      clear L X. induction H as [|x kv xs kvs Hx H IH]; [reflexivity|]. cbn [flat_map]. rewrite (proj1 (enc_param _ _ Hx)), IH. reflexivity.
    + discriminate.
    + clear L. induction H as [|x kv xs kvs Hx H IH]; constructor; [|exact IH]. destruct (enc_param _ _ Hx) as [_ F]. rewrite Forall_forall in F. intros I. destruct (F _ I). congruence.
Qed.
Lemma qget_first k l : qget k l = first_value k l.
Proof. unfold first_value. induction l as [|[j v] r IH]; [reflexivity|]. cbn [qget filter fst]. destruct (beqb j k); [reflexivity|exact IH]. Qed.

(** ** The round trip *)
Definition with_auth (eu ep : bytes) (h : bytes) : bytes := eu ++ ch 58 :: ep ++ ch 64 :: h.
Lemma parse_authority_ok lit sch eu u ep p h : writes_user eu u -> writes_password ep p -> host_text h ->
  parse_authority lit sch (with_auth eu ep h) = Some (Some (u, Some p), h).
Proof.
  intros U P H. destruct (enc_user _ _ U) as [Uu Fu], (enc_password _ _ P) as [Up Fp], (host_facts _ H) as [Fh Ph]. unfold with_auth, parse_authority.
  replace (eu ++ ch 58 :: ep ++ ch 64 :: h) with ((eu ++ ch 58 :: ep) ++ ch 64 :: h) by (rewrite <- app_assoc; reflexivity).
  rewrite cut_last_some by (intros I; rewrite Forall_forall in Fh; apply (Fh _ I); cbn; tauto). rewrite Ph.
  assert (V : forallb user_char (eu ++ ch 58 :: ep) = true).
  { apply forallb_forall. intros c I. rewrite Forall_forall in Fu, Fp. rewrite in_app_iff in I. cbn [In] in I. unfold user_textb in *. destruct I as [I|[<-|I]]; [destruct (Fu _ I) as [X _]|reflexivity|specialize (Fp _ I) as X]; rewrite !andb_true_iff in X; tauto. }
  rewrite V. cbn [negb]. rewrite cut_some by (intros I; rewrite Forall_forall in Fu; destruct (Fu _ I); congruence). rewrite Uu, Up. reflexivity.
Qed.
Lemma path_facts p : path_text p -> Forall (fun c => quietb c = true /\ c <> ch 63 /\ c <> ch 37) p /\ (p = [] \/ exists r, p = ch 47 :: r).
Proof.
  intros [->|(r & -> & F)]; [split; [constructor|left; reflexivity]|]. split; [|right; exists r; reflexivity]. constructor; [repeat split; discriminate|].
  eapply Forall_impl; [|exact F]. intros c Hc. apply in_pathb_iff in Hc. assert (X : quietb c && negb (oneof "?%" c) = true) by (revert c Hc; apply by_check; vm_compute; reflexivity).
  apply andb_true_iff in X. destruct X as [X Y]. split; [exact X|]. split; intros ->; discriminate Y.
Qed.
Lemma scheme_chars s : scheme_text s -> Forall (fun c => quietb c = true) s.
Proof.
  destruct s as [|c r]; [intros []|]. intros [L F].
  assert (C : forall c, letterb c || digitb c || oneof "+-." c = true -> quietb c = true) by (apply by_check; vm_compute; reflexivity).
  constructor; [apply C; apply letterb_iff in L; rewrite L; reflexivity|]. eapply Forall_impl; [|exact F]. intros d Hd. cbv beta in Hd. apply C. rewrite !orb_true_iff, letterb_iff, digitb_iff, oneof_chars. tauto.
Qed.
Lemma every_text v : exists e, writes_user e v /\ writes_password e v /\ writes_key e v /\ writes_value e v.
Proof.
  assert (H : forall safe plus, encodes safe plus (flat_map (fun c => ch 37 :: hex_byte c) v) v).
  { intros safe plus. induction v as [|c v IH]; [constructor|]. cbn [flat_map app]. unfold hex_byte. cbn [app].
    assert (L : (nat_of_ascii c < 256)%nat) by apply nat_ascii_bounded.
    assert (D : forall n, (n < 16)%nat -> hex_digit (hex_upper (Z.of_nat n)) n). { intros n Hn. right. do 16 (destruct n as [|n]; [reflexivity|]). lia. }
    replace (Z.of_nat (nat_of_ascii c) / 16)%Z with (Z.of_nat (nat_of_ascii c / 16)) by (rewrite Nat2Z.inj_div; reflexivity).
    replace (Z.of_nat (nat_of_ascii c) mod 16)%Z with (Z.of_nat (nat_of_ascii c mod 16)) by (rewrite Nat2Z.inj_mod; reflexivity).
    set (n := nat_of_ascii c) in *. assert (E : c = ascii_of_nat (16 * (n / 16) + n mod 16)). { rewrite <- Nat.div_mod by lia. unfold n. symmetry. apply ascii_nat_embedding. }
    enough (X : encodes safe plus (ch 37 :: hex_upper (Z.of_nat (n / 16)) :: hex_upper (Z.of_nat (n mod 16)) :: flat_map (fun c => ch 37 :: hex_byte c) v) (ascii_of_nat (16 * (n / 16) + n mod 16) :: v)) by (rewrite <- E in X; exact X).
    apply en_hex; [| |exact IH]; apply D; [apply Nat.div_lt_upper_bound; lia|apply Nat.mod_upper_bound; lia]. }
  exists (flat_map (fun c => ch 37 :: hex_byte c) v). repeat split; apply H.
Qed.
Lemma fq_user e v : writes_user e v -> Forall (fun c => quietb c = true /\ ~ In c [ch 47; ch 63]) e.
Proof.
  intros H. eapply Forall_impl; [|exact (proj2 (enc_user _ _ H))]. cbv beta. intros c [X _]. unfold user_textb in X. rewrite !andb_true_iff, negb_true_iff in X. destruct X as [[X _] Y]. split; [exact X|].
  intros [<-|[<-|[]]]; discriminate Y.
Qed.
Lemma fq_password e v : writes_password e v -> Forall (fun c => quietb c = true /\ ~ In c [ch 47; ch 63]) e.
Proof.
  intros H. eapply Forall_impl; [|exact (proj2 (enc_password _ _ H))]. cbv beta. intros c X. unfold user_textb in X. rewrite !andb_true_iff, negb_true_iff in X. destruct X as [[X _] Y]. split; [exact X|].
  intros [<-|[<-|[]]]; discriminate Y.
Qed.
Lemma fq_host h : host_text h -> Forall (fun c => quietb c = true /\ ~ In c [ch 47; ch 63]) h.
Proof. intros H. eapply Forall_impl; [|exact (proj1 (host_facts _ H))]. cbv beta. cbn [In]. intros c X. tauto. Qed.
Lemma fq_with_auth eu u ep p h : writes_user eu u -> writes_password ep p -> host_text h -> Forall (fun c => quietb c = true /\ ~ In c [ch 47; ch 63]) (with_auth eu ep h).
Proof.
  intros U P H. unfold with_auth. apply Forall_app. split; [eapply fq_user; eassumption|]. constructor; [split; [reflexivity|cbn; intuition discriminate]|]. apply Forall_app. split; [eapply fq_password; eassumption|].
  constructor; [split; [reflexivity|cbn; intuition discriminate]|]. apply fq_host, H.
Qed.
Lemma written_quiet es l : Forall2 writes_param es l -> Forall (fun c => quietb c = true) (join [ch 38] es).
Proof.
  intros H. apply join_chars; [reflexivity|]. induction H as [|x kv xs kvs Hx H IH]; constructor; [|exact IH]. eapply Forall_impl; [|exact (proj2 (enc_param _ _ Hx))]. cbv beta. tauto.
Qed.
(** A whole data source: what comes before the query is given by its authority *)
Lemma parse_whole lit sch auth path t q : scheme_text sch -> Forall (fun c => quietb c = true /\ ~ In c [ch 47; ch 63]) auth -> path_text path -> (t = [] /\ q = [] \/ t = ch 63 :: q) -> Forall (fun c => quietb c = true) q ->
  clean_ds (sch ++ B "://" ++ auth ++ path ++ t) = sch ++ B "://" ++ auth ++ path ++ t /\
  parse_url lit (sch ++ B "://" ++ auth ++ path ++ t) = match parse_authority lit (map lower_ascii sch) auth with Some (ui, h) => Some (mkUrl (map lower_ascii sch) ui h q) | None => None end.
Proof.
  intros S A P T Q. pose proof (scheme_chars _ S) as SQ. destruct (path_facts _ P) as [PF PP].
  assert (TQ : Forall (fun c => quietb c = true) t) by (destruct T as [[-> ->]| ->]; [constructor|constructor; [reflexivity|exact Q]]).
  assert (AQ : Forall (fun c => quietb c = true) auth) by (eapply Forall_impl; [|exact A]; cbv beta; tauto).
  assert (PQ : Forall (fun c => quietb c = true) path) by (eapply Forall_impl; [|exact PF]; cbv beta; tauto).
  assert (All : Forall (fun c => quietb c = true) (sch ++ auth ++ path ++ t)) by (rewrite !Forall_app; tauto).
  assert (All2 : Forall (fun c => quietb c = true) (sch ++ B "://" ++ auth ++ path ++ t)). { rewrite !Forall_app. repeat split; try assumption. repeat constructor. }
  destruct (quiet_facts _ All) as (C1 & C2 & _). destruct (quiet_facts _ All2) as (_ & _ & C3). split; [exact C3|].
  apply parse_text; try assumption.
  - intros I. rewrite Forall_forall in A. apply (A _ I). cbn. tauto.
  - intros I. rewrite Forall_forall in A. apply (A _ I). cbn. tauto.
  - intros I. rewrite Forall_forall in PF. destruct (PF _ I) as (_ & X & _). congruence.
  - intros I. rewrite Forall_forall in PF. destruct (PF _ I) as (_ & _ & X). congruence.
Qed.

(** ** Adding to the query *)
Lemma letter_not63 c : is_letter c = true -> c <> ch 63. Proof. intros H ->. discriminate H. Qed.
Lemma more_not63 c : is_digit c || oneof "+-." c = true -> c <> ch 63. Proof. intros H ->. discriminate H. Qed.
Lemma scheme_more s x : In (ch 63) s -> forall seen sch rest, scheme_loop seen s = Some (sch, rest) -> scheme_loop seen (s ++ x) = Some (sch, rest ++ x) /\ In (ch 63) rest.
Proof.
  induction s as [|c s IH]; intros I seen sch rest E; [destruct I|]. cbn [scheme_loop app] in *.
  destruct (is_letter c) eqn:L; [apply IH; [|exact E]; destruct I as [->|I]; [discriminate L|exact I]|].
  destruct (is_digit c || oneof "+-." c) eqn:D.
  - destruct (is_empty seen); [injection E as <- <-; split; [reflexivity|exact I]|]. apply IH; [|exact E]. destruct I as [->|I]; [discriminate D|exact I].
  - destruct (Ascii.eqb_spec c (ch 58)) as [->|N].
    + destruct (is_empty seen); [discriminate E|]. injection E as <- <-. split; [reflexivity|]. destruct I as [I|I]; [discriminate I|exact I].
    + injection E as <- <-. split; [rewrite <- app_assoc; reflexivity|]. apply in_app_iff. right. exact I.
Qed.
Lemma cut_app c s x a b : cut c s = Some (a, b) -> cut c (s ++ x) = Some (a, b ++ x).
Proof.
  revert a b. induction s as [|d s IH]; cbn [cut app]; intros a b E; [discriminate E|]. destruct (Ascii.eqb d c); [injection E as <- <-; reflexivity|].
  destruct (cut c s) as [[a' b']|]; [|discriminate E]. injection E as <- <-. rewrite (IH _ _ eq_refl). reflexivity.
Qed.
Lemma in_cut c s : In c s -> exists a b, cut c s = Some (a, b).
Proof. intros I. destruct (cut c s) as [[a b]|] eqn:E; [exists a, b; reflexivity|]. apply cut_none_inv in E. contradiction. Qed.
Lemma parse_rest_query lit sch rest q u : parse_rest lit sch rest q = Some u -> u_query u = q /\ u_scheme u = sch /\ forall q', parse_rest lit sch rest q' = Some (mkUrl (u_scheme u) (u_user u) (u_host u) q').
Proof.
  unfold parse_rest. destruct (negb (has_prefix (B "/") rest)).
  - destruct (negb (is_empty sch)); [intros [= <-]; repeat split|]. destruct (has (ch 58) (before (ch 47) rest)); [discriminate|]. destruct (unescape EPath rest); [|discriminate]. intros [= <-]. repeat split.
  - destruct (has_prefix (B "//") rest && _).
    + destruct (parse_authority _ _ _) as [[ui h]|]; [|discriminate]. destruct (unescape EPath _); [|discriminate]. intros [= <-]. repeat split.
    + destruct (unescape EPath rest); [|discriminate]. intros [= <-]. repeat split.
Qed.
Lemma parse_more lit s x u : parse_url lit s = Some u -> In (ch 63) s -> ~ In (ch 35) s -> ~ In (ch 35) x -> existsb is_ctl x = false ->
  parse_url lit (s ++ x) = Some (mkUrl (u_scheme u) (u_user u) (u_host u) (u_query u ++ x)).
Proof.
  unfold parse_url. intros E I N Nx Cx.
  assert (N2 : ~ In (ch 35) (s ++ x)) by (rewrite in_app_iff; tauto).
  rewrite (before_none _ _ N), (after_none _ _ N) in E. rewrite (before_none _ _ N2), (after_none _ _ N2). cbn [unescape] in *.
  assert (M : parse_main lit s = Some u) by (destruct (parse_main lit s); congruence).
  assert (M' : parse_main lit (s ++ x) = Some (mkUrl (u_scheme u) (u_user u) (u_host u) (u_query u ++ x))); [|rewrite M'; reflexivity].
  unfold parse_main in *. rewrite existsb_app, Cx, orb_false_r. destruct (existsb is_ctl s); [discriminate M|].
  assert (B1 : beqb s (B "*") = false). { apply beqb_neq. intros ->. destruct I as [I|[]]. discriminate I. }
  assert (B2 : beqb (s ++ x) (B "*") = false). { apply beqb_neq. intros X. assert (J : In (ch 63) (B "*")) by (rewrite <- X; apply in_app_iff; left; exact I). destruct J as [J|[]]. discriminate J. }
  rewrite B1 in M. rewrite B2. destruct (get_scheme s) as [[sch rest]|] eqn:G; [|discriminate M]. unfold get_scheme in *. destruct (scheme_more s x I _ _ _ G) as [-> J].
  destruct (in_cut _ _ J) as (a & b & C). unfold before, after in *. rewrite C in M. rewrite (cut_app _ _ x _ _ C). destruct (parse_rest_query _ _ _ _ _ M) as (Q1 & Q2 & Q3). rewrite (Q3 (b ++ x)), Q1. reflexivity.
Qed.
Lemma split_on_app c a b : split_on c (a ++ c :: b) = split_on c a ++ split_on c b.
Proof.
  induction a as [|x r IH]; cbn [app split_on].
  - destruct (ascii_dec c c) as [_|N]; [reflexivity|congruence].
  - destruct (ascii_dec x c); rewrite IH; [reflexivity|]. pose proof (split_on_nonempty c r) as N. destruct (split_on c r); [congruence|reflexivity].
Qed.
Lemma split_count c s : length (split_on c s) = S (count_occ ascii_dec s c).
Proof.
  induction s as [|x r IH]; [reflexivity|]. cbn [split_on count_occ]. destruct (ascii_dec x c); cbn [length]; [rewrite IH; reflexivity|]. destruct (split_on c r); cbn [length] in *; lia.
Qed.
Lemma query_pairs_app q x : (Z.of_nat (length (split_on (ch 38) (q ++ ch 38 :: x))) <= max_params)%Z -> query_pairs (q ++ ch 38 :: x) = query_pairs q ++ query_pairs x.
Proof.
  intros L. unfold query_pairs. rewrite split_on_app in *. rewrite app_length in *. rewrite Nat2Z.inj_add in *.
  destruct (Z.ltb_spec max_params (Z.of_nat (length (split_on (ch 38) q)) + Z.of_nat (length (split_on (ch 38) x)))); [lia|].
  destruct (Z.ltb_spec max_params (Z.of_nat (length (split_on (ch 38) q)))); [lia|]. destruct (Z.ltb_spec max_params (Z.of_nat (length (split_on (ch 38) x)))); [lia|]. apply flat_map_app.
Qed.
Lemma after_count c d s : (count_occ ascii_dec (after c s) d <= count_occ ascii_dec s d)%nat.
Proof.
  unfold after. destruct (cut c s) as [[a b]|] eqn:E; [|cbn; lia]. destruct (cut_inv _ _ _ _ E) as [-> _]. rewrite count_occ_app. cbn [count_occ]. destruct (ascii_dec c d); lia.
Qed.
Lemma parse_query lit s u : parse_url lit s = Some u -> ~ In (ch 35) s -> (count_occ ascii_dec (u_query u) (ch 38) <= count_occ ascii_dec s (ch 38))%nat.
Proof.
  unfold parse_url. intros E N. rewrite (before_none _ _ N) in E. destruct (parse_main lit s) as [v|] eqn:M; [|discriminate E]. destruct (unescape EFrag _); [|discriminate E]. injection E as ->.
  unfold parse_main in M. destruct (existsb is_ctl s); [discriminate M|]. destruct (beqb s (B "*")); [injection M as <-; cbn; lia|].
  destruct (get_scheme s) as [[sch rest]|] eqn:G; [|discriminate M]. destruct (parse_rest_query _ _ _ _ _ M) as (-> & _ & _).
  assert (X : forall s seen sch rest, scheme_loop seen s = Some (sch, rest) -> (count_occ ascii_dec rest (ch 38) <= count_occ ascii_dec (rev seen) (ch 38) + count_occ ascii_dec s (ch 38))%nat).
  { clear. induction s as [|c s IH]; intros seen sch rest E; cbn [scheme_loop] in E.
    - injection E as <- <-. lia.
    - assert (Y : scheme_loop (c :: seen) s = Some (sch, rest) -> (count_occ ascii_dec rest (ch 38) <= count_occ ascii_dec (rev seen) (ch 38) + count_occ ascii_dec (c :: s) (ch 38))%nat).
      { intros E'. specialize (IH _ _ _ E'). cbn [rev] in IH. rewrite count_occ_app in IH. cbn [count_occ] in *. destruct (ascii_dec c (ch 38)); lia. }
      destruct (is_letter c); [auto|]. destruct (is_digit c || oneof "+-." c); [destruct (is_empty seen); [injection E as <- <-; lia|auto]|].
      destruct (Ascii.eqb c (ch 58)).
      + destruct (is_empty seen); [discriminate E|]. injection E as <- <-. cbn [count_occ]. destruct (ascii_dec c (ch 38)); lia.
      + injection E as <- <-. rewrite count_occ_app. lia. }
  specialize (X s [] sch rest G). cbn [rev count_occ] in X. pose proof (after_count (ch 63) (ch 38) rest). lia.
Qed.
Lemma filter_app_values k l kv : map snd (filter (fun x : bytes * bytes => beqb (fst x) k) (l ++ [kv])) = map snd (filter (fun x => beqb (fst x) k) l) ++ (if beqb (fst kv) k then [snd kv] else []).
Proof. rewrite filter_app, map_app. f_equal. cbn [filter]. destruct (beqb (fst kv) k); reflexivity. Qed.

(** ** Cleaning, by the first and the last character *)
Lemma trim_ends cs a m z : ~ In a cs -> Forall (fun c => ~ In c cs) z -> z <> [] -> trim cs (a :: m ++ z) = a :: m ++ z.
Proof.
  intros A Z N. assert (NI : forall c, ~ In c cs -> in_set cs c = false) by (intros c H; destruct (in_set cs c) eqn:E; [apply in_set_in in E; contradiction|reflexivity]).
  unfold trim, trim_right. rewrite trim_left_head by (apply NI, A). change (a :: m ++ z) with ((a :: m) ++ z). rewrite rev_app_distr.
  assert (Z' : Forall (fun c => ~ In c cs) (rev z)) by (apply Forall_rev, Z). destruct (rev z) as [|y r] eqn:R; [destruct N; apply (f_equal (@rev ascii)) in R; rewrite rev_involutive in R; exact R|].
  inversion Z' as [|? ? Y _]; subst. cbn [app]. rewrite trim_left_head by (apply NI, Y). change (y :: r ++ rev (a :: m)) with ((y :: r) ++ rev (a :: m)). rewrite <- R, rev_app_distr, !rev_involutive. reflexivity.
Qed.
Lemma clean_ends a m z : ~ In a (ch 34 :: spaces) -> Forall (fun c => ~ In c (ch 34 :: spaces)) z -> z <> [] -> clean_ds (a :: m ++ z) = a :: m ++ z.
Proof.
  intros A Z N. unfold clean_ds. rewrite !trim_ends; try exact N; try (cbn [In] in *; tauto); try reflexivity; (eapply Forall_impl; [|exact Z]); cbn [In]; tauto.
Qed.
Lemma trim_left_le cs s : (length (trim_left cs s) <= length s)%nat.
Proof. destruct (trim_left_split cs s) as (p & E & _). rewrite E at 2. rewrite app_length. lia. Qed.
Lemma trim_le cs s : (length (trim cs s) <= length (trim_left cs s))%nat.
Proof. unfold trim, trim_right. rewrite rev_length. rewrite <- (rev_length (trim_left cs s)). apply trim_left_le. Qed.
Lemma clean_head c r : clean_ds (c :: r) = c :: r -> ~ In c (ch 34 :: spaces).
Proof.
  unfold clean_ds. intros E I. apply (f_equal (@length ascii)) in E. cbn [length] in E.
  pose proof (trim_le spaces (trim [ch 34] (c :: r))) as L1. pose proof (trim_left_le spaces (trim [ch 34] (c :: r))) as L2. pose proof (trim_le [ch 34] (c :: r)) as L3.
  assert (I' : In c [ch 34] \/ In c spaces) by (cbn [In] in *; tauto). destruct I' as [H|H].
  - cbn [trim_left] in L3. rewrite (proj2 (in_set_in _ _) H) in L3. pose proof (trim_left_le [ch 34] r). lia.
  - assert (T : trim [ch 34] (c :: r) = c :: r).
    { assert (Ln : (length (trim [ch 34] (c :: r)) = length (c :: r))%nat) by (pose proof (trim_left_le [ch 34] (c :: r)); cbn [length] in *; lia).
      unfold trim, trim_right in *. pose proof (trim_left_split [ch 34] (c :: r)) as (p & Ep & _). pose proof (trim_left_split [ch 34] (rev (trim_left [ch 34] (c :: r)))) as (p' & Ep' & _).
      assert (P' : p' = []). { apply length_zero_iff_nil. apply (f_equal (@length ascii)) in Ep, Ep'. rewrite app_length in Ep, Ep'. rewrite rev_length in *. lia. }
      assert (P : p = []). { apply length_zero_iff_nil. apply (f_equal (@length ascii)) in Ep, Ep'. rewrite app_length in Ep, Ep'. rewrite rev_length in *. lia. }
      subst p p'. cbn [app] in Ep, Ep'. rewrite <- Ep', rev_involutive. symmetry. exact Ep. }
    rewrite T in *. cbn [trim_left] in L1. rewrite (proj2 (in_set_in _ _) H) in L1. pose proof (trim_left_le spaces r). lia.
Qed.

(** ** Reading parts of a query *)
Lemma unhex_inv c n : unhex c = Some n -> hex_digit c n.
Proof.
  intros H. assert (X : hexb c = true). { revert H. apply (fun K => K). destruct (unhex c) as [m|] eqn:U; [|discriminate]. intros _. revert U. clear.
    assert (K : forall c, (match unhex c with Some _ => true | None => false end) = true -> hexb c = true) by (apply by_check; vm_compute; reflexivity). intros U. apply K. rewrite U. reflexivity. }
  apply oneof_chars in X. unfold chars, B in X. cbn [list_ascii_of_string In] in X. unfold hex_digit.
  repeat (destruct X as [<-|X]; [injection H as <-; first [left; reflexivity|right; reflexivity]|]). contradiction.
Qed.
Lemma unescape_reads e v : unescape EQuery e = Some v <-> reads e v.
Proof.
  split.
  - assert (G : forall n e v, (length e <= n)%nat -> unescape EQuery e = Some v -> reads e v); [|intros H; exact (G (length e) e v (le_n _) H)].
    clear. induction n as [|n IH]; intros e v L H.
    { destruct e; [|cbn [length] in L; lia]. injection H as <-. constructor. }
    destruct e as [|x r]; [injection H as <-; constructor|]. cbn [unescape length] in *.
    destruct (Ascii.eqb_spec x (ch 37)) as [->|N1].
    + destruct r as [|a [|b r']]; try discriminate H. destruct (unhex a) as [h|] eqn:Ha; [|discriminate H]. destruct (unhex b) as [l|] eqn:Hb; [|discriminate H].
      cbn [is_host andb] in H. destruct (unescape EQuery r') as [v'|] eqn:U; [|discriminate H]. injection H as <-. apply en_hex; [apply unhex_inv, Ha|apply unhex_inv, Hb|]. apply IH; [cbn [length] in L; lia|exact U].
    + cbn [is_host is_query andb] in H. rewrite andb_true_r in H. destruct (Ascii.eqb_spec x (ch 43)) as [->|N2].
      * destruct (unescape EQuery r) as [v'|] eqn:U; [|discriminate H]. injection H as <-. apply en_plus; [exact I|]. apply IH; [lia|exact U].
      * destruct (unescape EQuery r) as [v'|] eqn:U; [|discriminate H]. injection H as <-. apply en_char; [split; assumption|]. apply IH; [lia|exact U].
  - intros H. refine (unescape_encodes EQuery _ True e v eq_refl _ _ H); [reflexivity|]. intros c [N1 N2]. split; [exact N1|]. intros ->. congruence.
Qed.
Lemma part_reads_iff e kv : part_reads e kv <-> e <> [] /\ unescape EQuery (before (ch 61) e) = Some (fst kv) /\ unescape EQuery (after (ch 61) e) = Some (snd kv).
Proof.
  unfold part_reads. split.
  - intros (ek & N & R & [(-> & Ne & S)|(ev & -> & R2)]).
    + rewrite (before_none _ _ N), (after_none _ _ N), S. split; [exact Ne|]. split; [apply unescape_reads, R|reflexivity].
    + rewrite (before_some _ _ _ N), (after_some _ _ _ N). split; [destruct ek; discriminate|]. split; apply unescape_reads; assumption.
  - intros (Ne & U1 & U2). destruct (in_dec ascii_dec (ch 61) e) as [I|N].
    + destruct (in_cut _ _ I) as (a & b & C). destruct (cut_inv _ _ _ _ C) as [-> Na]. rewrite (before_some _ _ _ Na) in U1. rewrite (after_some _ _ _ Na) in U2.
      exists a. split; [exact Na|]. split; [apply unescape_reads, U1|]. right. exists b. split; [reflexivity|apply unescape_reads, U2].
    + rewrite (before_none _ _ N) in U1. rewrite (after_none _ _ N) in U2. injection U2 as U2. exists e. split; [exact N|]. split; [apply unescape_reads, U1|]. left. repeat split; auto.
Qed.
Lemma query_part_shows e : part_shows e (query_part e).
Proof.
  unfold query_part, part_shows. destruct (has (ch 59) e) eqn:H; [left; split; [reflexivity|left; apply has_in, H]|].
  assert (N59 : ~ In (ch 59) e) by (intros I; apply has_in in I; congruence).
  destruct (is_empty e) eqn:Em; [left; split; [reflexivity|]; right; intros kv P; apply part_reads_iff in P; destruct e; [destruct P; congruence|discriminate Em]|].
  assert (Ne : e <> []) by (intros ->; discriminate Em).
  destruct (unescape EQuery (before (ch 61) e)) as [k|] eqn:U1; [destruct (unescape EQuery (after (ch 61) e)) as [v|] eqn:U2|].
  - right. exists (k, v). split; [reflexivity|]. split; [exact N59|]. apply part_reads_iff. cbn [fst snd]. auto.
  - left. split; [reflexivity|]. right. intros kv P. apply part_reads_iff in P. destruct P as (_ & _ & P). congruence.
  - left. split; [reflexivity|]. right. intros kv P. apply part_reads_iff in P. destruct P as (_ & P & _). congruence.
Qed.
Lemma part_shows_fun e l : part_shows e l -> l = query_part e.
Proof.
  intros H. pose proof (query_part_shows e) as Q. destruct H as [[-> H]|(kv & -> & N & R)], Q as [[-> Q]|(kv' & -> & N' & R')]; try reflexivity.
  - exfalso. destruct H as [H|H]; [exact (N' H)|exact (H _ R')].
  - exfalso. destruct Q as [Q|Q]; [exact (N Q)|exact (Q _ R)].
  - apply part_reads_iff in R, R'. destruct R as (_ & A & A2), R' as (_ & B & B2). destruct kv, kv'. cbn [fst snd] in *. congruence.
Qed.
Lemma query_pairs_shown es ls : Forall query_text es -> Forall2 part_shows es ls -> (Z.of_nat (length es) <= max_params)%Z -> query_pairs (join [ch 38] es) = concat ls.
Proof.
  intros T H L. unfold query_pairs. destruct es as [|e es]; [inversion H; subst; reflexivity|]. rewrite split_join.
  - destruct (Z.ltb_spec max_params (Z.of_nat (length (e :: es)))) as [X|X]; [lia|]. clear L X T. induction H as [|x l xs ls Hx H IH]; [reflexivity|]. cbn [flat_map concat]. rewrite <- (part_shows_fun _ _ Hx), IH. reflexivity.
  - discriminate.
  - eapply Forall_impl; [|exact T]. intros x Hx I. unfold query_text in Hx. rewrite Forall_forall in Hx. destruct (Hx _ I) as (_ & _ & N). apply N. left. reflexivity.
Qed.
Lemma query_pairs_many es : es <> [] -> Forall query_text es -> (max_params < Z.of_nat (length es))%Z -> query_pairs (join [ch 38] es) = [].
Proof.
  intros N T L. unfold query_pairs. rewrite split_join.
  - destruct (Z.ltb_spec max_params (Z.of_nat (length es))) as [X|X]; [reflexivity|lia].
  - exact N.
  - eapply Forall_impl; [|exact T]. intros x Hx I. unfold query_text in Hx. rewrite Forall_forall in Hx. destruct (Hx _ I) as (_ & _ & M). apply M. left. reflexivity.
Qed.
Lemma query_text_chars es : Forall query_text es -> Forall (fun c => is_ctl c = false /\ c <> ch 35) (join [ch 38] es).
Proof.
  intros T. apply join_chars; [split; [reflexivity|discriminate]|]. eapply Forall_impl; [|exact T]. intros x Hx. eapply Forall_impl; [|exact Hx]. cbv beta. intros c (A & D & N). split.
  - unfold is_ctl, code. apply orb_false_iff. split; [apply Nat.ltb_ge; exact A|apply Nat.eqb_neq; exact D].
  - intros ->. apply N. right. left. reflexivity.
Qed.
(** No '?', no query *)
Lemma scheme_incl s : forall seen sch rest, scheme_loop seen s = Some (sch, rest) -> forall c, In c rest -> In c s \/ In c seen.
Proof.
  induction s as [|x r IH]; intros seen sch rest E c I; cbn [scheme_loop] in E.
  - injection E as <- <-. right. apply in_rev. exact I.
  - assert (Y : scheme_loop (x :: seen) r = Some (sch, rest) -> In c (x :: r) \/ In c seen). { intros E'. destruct (IH _ _ _ E' c I) as [J|[->|J]]; [left; right; exact J|left; left; reflexivity|right; exact J]. }
    destruct (is_letter x); [auto|]. destruct (is_digit x || oneof "+-." x); [destruct (is_empty seen); [injection E as <- <-; left; exact I|auto]|].
    destruct (Ascii.eqb x (ch 58)); [destruct (is_empty seen); [discriminate E|]; injection E as <- <-; left; right; exact I|]. injection E as <- <-. apply in_app_iff in I. destruct I as [I|I]; [right; apply in_rev; exact I|left; exact I].
Qed.
Lemma before_incl c s x : In x (before c s) -> In x s.
Proof. unfold before. destruct (cut c s) as [[a b]|] eqn:E; [|auto]. destruct (cut_inv _ _ _ _ E) as [-> _]. intros I. apply in_app_iff. left. exact I. Qed.
Lemma no_query lit s u : parse_url lit s = Some u -> ~ In (ch 63) s -> u_query u = [].
Proof.
  unfold parse_url. intros E N. destruct (parse_main lit (before (ch 35) s)) as [v|] eqn:M; [|discriminate E]. destruct (unescape EFrag _); [|discriminate E]. injection E as ->.
  unfold parse_main in M. destruct (existsb is_ctl _); [discriminate M|]. destruct (beqb _ (B "*")); [injection M as <-; reflexivity|].
  destruct (get_scheme _) as [[sch rest]|] eqn:G; [|discriminate M]. destruct (parse_rest_query _ _ _ _ _ M) as (-> & _ & _). apply after_none. intros I.
  destruct (scheme_incl _ _ _ _ G _ I) as [J|[]]. apply N. exact (before_incl _ _ _ J).
Qed.
Lemma by_all (P : ascii -> Prop) b s : (forall c, b c = true -> P c) -> forallb b s = true -> Forall P s.
Proof. intros H F. rewrite forallb_forall in F. apply Forall_forall. intros c I. apply H, F, I. Qed.

Definition other_driver_same (a b : source) : Prop := so_driver a = so_driver b /\ so_host a = so_host b /\ so_user a = so_user b /\ so_password a = so_password b.
Lemma add_param rs lit ds src k db : resolved rs ds -> clean_ds ds = ds -> parse_source rs lit ds = Some src -> In (ch 63) ds -> ~ In (ch 35) ds -> (Z.of_nat (count_occ ascii_dec ds (ch 38)) <= 9998)%Z ->
  db <> [] -> Forall (fun c => quietb c = true) (k ++ db) -> Forall (fun c => c <> ch 38 /\ c <> ch 61 /\ plain_char c) k -> k <> [] ->
  let s := ds ++ ch 38 :: k ++ ch 61 :: db in
  (count_occ ascii_dec db (ch 38) = 0)%nat ->
  resolved rs s -> exists src', parse_source rs lit s = Some src' /\ other_driver_same src src' /\ so_params src' = so_params src ++ query_pairs (k ++ ch 61 :: db).
Proof.
  intros R C P I N L D Qx K Kn s Cdb Rs. unfold parse_source in *. rewrite R, C in P. destruct (parse_url lit ds) as [u|] eqn:U; [|discriminate P]. injection P as <-.
  assert (Qd : Forall (fun c => quietb c = true) (ch 38 :: k ++ ch 61 :: db)). { constructor; [reflexivity|]. rewrite Forall_app in *. destruct Qx as [A B]. split; [exact A|]. constructor; [reflexivity|exact B]. }
  destruct (quiet_facts _ Qd) as (C1 & C2 & _).
  assert (Cs : clean_ds s = s).
  { unfold s. destruct ds as [|c r]; [destruct I|]. change ((c :: r) ++ ch 38 :: k ++ ch 61 :: db) with (c :: r ++ (ch 38 :: k ++ ch 61 :: db)). apply clean_ends; [exact (clean_head _ _ C)| |discriminate].
    eapply Forall_impl; [|exact Qd]. cbv beta. intros d Hd J. cbn [In spaces] in J. repeat (destruct J as [<-|J]; [discriminate Hd|]). exact J. }
  rewrite Rs, Cs. unfold s. rewrite (parse_more _ _ _ _ U I N C2 C1). cbn [option_map]. eexists. split; [reflexivity|]. split; [repeat split|]. cbn [make_source so_params u_query].
  apply query_pairs_app. rewrite split_count, count_occ_app. cbn [count_occ]. destruct (ascii_dec (ch 38) (ch 38)) as [_|X]; [|congruence]. rewrite count_occ_app. cbn [count_occ]. destruct (ascii_dec (ch 61) (ch 38)) as [X|_]; [discriminate X|].
  assert (K0 : count_occ ascii_dec k (ch 38) = 0%nat). { apply count_occ_not_In. intros J. rewrite Forall_forall in K. destruct (K _ J) as (X & _). congruence. }
  pose proof (parse_query _ _ _ U N). unfold max_params. rewrite K0, Cdb. lia.
Qed.
Lemma plain_quiet s : plain s -> Forall (fun c => quietb c = true) s.
Proof.
  intros H. eapply Forall_impl; [|exact H]. intros c (A & D & N). unfold quietb, is_ctl, code. rewrite andb_true_iff, !negb_true_iff, orb_false_iff, Nat.ltb_ge, Nat.eqb_neq. split; [split; [lia|exact D]|].
  apply not_true_iff_false. intros O. apply oneof_chars in O. unfold chars, B in *. cbn [list_ascii_of_string In] in *. destruct O as [<-|[<-|[<-|[]]]]; [tauto|cbn in A; lia|tauto].
Qed.
Lemma plain_part k db : Forall (fun c => c <> ch 38 /\ c <> ch 61 /\ plain_char c) k -> k <> [] -> plain db -> query_pairs (k ++ ch 61 :: db) = [(k, db)].
Proof.
  intros K Kn P. unfold plain in P. rewrite Forall_forall in K, P.
  assert (N : forall x, In x (B "#&;%+") -> ~ In x k /\ ~ In x db). { intros x X. split; intros J; [destruct (K _ J) as (_ & _ & _ & _ & Y)|destruct (P _ J) as (_ & _ & Y)]; apply Y; unfold chars, B in *; cbn [list_ascii_of_string In] in *; tauto. }
  unfold query_pairs. assert (S : split_on (ch 38) (k ++ ch 61 :: db) = [k ++ ch 61 :: db]).
  { change (k ++ ch 61 :: db) with (join [ch 38] [k ++ ch 61 :: db]) at 1. apply split_join; [discriminate|]. constructor; [|constructor]. rewrite in_app_iff. cbn [In]. pose proof (N (ch 38) ltac:(cbn; tauto)). intuition discriminate. }
  rewrite S. cbn [length flat_map]. destruct (Z.ltb_spec max_params (Z.of_nat 1)) as [X|_]; [discriminate X|]. rewrite app_nil_r. symmetry. apply part_shows_fun. right. exists (k, db). split; [reflexivity|]. split.
  - rewrite in_app_iff. cbn [In]. pose proof (N (ch 59) ltac:(cbn; tauto)). intuition discriminate.
  - exists k. split; [intros J; destruct (K _ J) as (_ & Y & _); congruence|]. cbn [fst snd]. assert (Rd : forall s, (forall x, In x (B "%+") -> ~ In x s) -> reads s s).
    { intros s. induction s as [|c r IH]; intros Hs; [constructor|]. apply en_char; [split; intros ->; [apply (Hs (ch 37)); [cbn; tauto|left; reflexivity]|apply (Hs (ch 43)); [cbn; tauto|left; reflexivity]]|]. apply IH. intros x X J. apply (Hs x X). right. exact J. }
    split; [|right; exists db; split; [reflexivity|]]; apply Rd; intros x X; apply N; unfold B in *; cbn [list_ascii_of_string In] in *; tauto.
Qed.
Lemma plain_no_amp db : plain db -> count_occ ascii_dec db (ch 38) = 0%nat.
Proof. intros P. apply count_occ_not_In. intros J. unfold plain in P. rewrite Forall_forall in P. destruct (P _ J) as (_ & _ & Y). apply Y. cbn. tauto. Qed.
Lemma open_form rs lit ds src db : resolved rs ds -> clean_ds ds = ds -> parse_source rs lit ds = Some src -> db <> [] ->
  (so_driver src = B "postgres" -> contains (B "host=") ds = false -> open_string rs lit ds db = Some (B "postgres", ds ++ ch 38 :: B "dbname" ++ ch 61 :: db)) /\
  (so_driver src = B "sqlserver" -> open_string rs lit ds db = Some (B "sqlserver", ds ++ ch 38 :: B "database" ++ ch 61 :: db)).
Proof.
  intros R C P D. unfold open_string. rewrite R, C, P. destruct (is_empty db) eqn:E; [destruct db; [congruence|discriminate E]|]. split.
  - intros -> H. rewrite H. reflexivity.
  - intros ->. reflexivity.
Qed.
Lemma dbname_key : Forall (fun c => c <> ch 38 /\ c <> ch 61 /\ plain_char c) (B "dbname").
Proof. repeat constructor; try discriminate; try (cbn; lia); cbn; intuition discriminate. Qed.
Lemma database_key : Forall (fun c => c <> ch 38 /\ c <> ch 61 /\ plain_char c) (B "database").
Proof. repeat constructor; try discriminate; try (cbn; lia); cbn; intuition discriminate. Qed.
Lemma key_quiet k db : Forall (fun c => c <> ch 38 /\ c <> ch 61 /\ plain_char c) k -> plain db -> Forall (fun c => quietb c = true) (k ++ db).
Proof. intros K P. apply plain_quiet. apply Forall_app. split; [eapply Forall_impl; [|exact K]; cbv beta; tauto|exact P]. Qed.
Lemma none_values k s : param s k = None -> values_of k s = [].
Proof. unfold param, values_of. induction (so_params s) as [|[j v] r IH]; [reflexivity|]. cbn [qget filter fst]. destruct (beqb j k); [discriminate|exact IH]. Qed.
Lemma some_values k s v : param s k = Some v -> exists r, values_of k s = v :: r.
Proof. unfold param, values_of. induction (so_params s) as [|[j w] r IH]; [discriminate|]. cbn [qget filter fst]. destruct (beqb j k); [intros [= <-]; cbn [map snd]; eexists; reflexivity|exact IH]. Qed.
Lemma values_param k s v r : values_of k s = v :: r -> param s k = Some v.
Proof. unfold param, values_of. induction (so_params s) as [|[j w] l IH]; [discriminate|]. cbn [qget filter fst]. destruct (beqb j k); [intros [= -> _]; reflexivity|exact IH]. Qed.
Lemma values_added k kv s s' : so_params s' = so_params s ++ [kv] -> values_of k s' = values_of k s ++ (if beqb (fst kv) k then [snd kv] else []).
Proof. intros E. unfold values_of. rewrite E. apply filter_app_values. Qed.
(** ** Percent signs in a password *)
Definition not_pct (c : ascii) : Prop := c <> ch 37.
Lemma unescape_user e v : unescape EUser e = Some v <-> encodes not_pct False e v.
Proof.
  split.
  - assert (G : forall n e v, (length e <= n)%nat -> unescape EUser e = Some v -> encodes not_pct False e v); [|intros H; exact (G (length e) e v (le_n _) H)].
    clear. induction n as [|n IH]; intros e v L H.
    { destruct e; [|cbn [length] in L; lia]. injection H as <-. constructor. }
    destruct e as [|x r]; [injection H as <-; constructor|]. cbn [unescape length] in *.
    destruct (Ascii.eqb_spec x (ch 37)) as [->|N1].
    + destruct r as [|a [|b r']]; try discriminate H. destruct (unhex a) as [h|] eqn:Ha; [|discriminate H]. destruct (unhex b) as [l|] eqn:Hb; [|discriminate H].
      cbn [is_host andb] in H. destruct (unescape EUser r') as [v'|] eqn:U; [|discriminate H]. injection H as <-. apply en_hex; [apply unhex_inv, Ha|apply unhex_inv, Hb|]. apply IH; [cbn [length] in L; lia|exact U].
    + cbn [is_host is_query andb] in H. rewrite andb_false_r in H.
      destruct (unescape EUser r) as [v'|] eqn:U; [|discriminate H]. injection H as <-. apply en_char; [exact N1|]. apply IH; [lia|exact U].
  - intros H. refine (unescape_encodes EUser _ False e v eq_refl _ _ H); [intros []|]. intros c N. split; [exact N|reflexivity].
Qed.
Lemma parse_authority_pct lit sch eu u p h : writes_user eu u -> Forall (fun c => in_password c \/ c = ch 64 \/ c = ch 37) p -> host_text h ->
  parse_authority lit sch (with_auth eu p h) = match unescape EUser p with Some v => Some (Some (u, Some v), h) | None => None end /\
  Forall (fun c => quietb c = true /\ ~ In c [ch 47; ch 63]) (with_auth eu p h).
Proof.
  intros U P H. destruct (enc_user _ _ U) as [Uu Fu], (host_facts _ H) as [Fh Ph].
  assert (Pc : forall c, (in_passwordb c || Ascii.eqb c (ch 64) || Ascii.eqb c (ch 37)) = true -> (user_char c && quietb c && negb (oneof "/?" c)) = true) by (apply by_check; vm_compute; reflexivity).
  assert (P' : Forall (fun c => user_char c = true /\ quietb c = true /\ ~ In c [ch 47; ch 63]) p).
  { eapply Forall_impl; [|exact P]. cbv beta. intros c Hc. assert (X : (user_char c && quietb c && negb (oneof "/?" c)) = true). { apply Pc. rewrite !orb_true_iff, in_passwordb_iff, !Ascii.eqb_eq. tauto. }
    rewrite !andb_true_iff, negb_true_iff in X. destruct X as [[X1 X2] X3]. split; [exact X1|]. split; [exact X2|]. intros [<-|[<-|[]]]; discriminate X3. }
  split.
  - unfold with_auth, parse_authority. replace (eu ++ ch 58 :: p ++ ch 64 :: h) with ((eu ++ ch 58 :: p) ++ ch 64 :: h) by (rewrite <- app_assoc; reflexivity).
    rewrite cut_last_some by (intros I; rewrite Forall_forall in Fh; apply (Fh _ I); cbn; tauto). rewrite Ph.
    assert (V : forallb user_char (eu ++ ch 58 :: p) = true).
    { apply forallb_forall. intros c I. apply in_app_or in I. rewrite Forall_forall in Fu, P'. destruct I as [I|[<-|I]]; [|reflexivity|exact (proj1 (P' _ I))]. destruct (Fu _ I) as [X _]. unfold user_textb in X. rewrite !andb_true_iff in X. tauto. }
    rewrite V. cbn [negb]. rewrite cut_some by (intros I; rewrite Forall_forall in Fu; destruct (Fu _ I); congruence). rewrite Uu. destruct (unescape EUser p); reflexivity.
  - unfold with_auth. apply Forall_app. split; [eapply fq_user; eassumption|]. constructor; [split; [reflexivity|cbn; intuition discriminate]|]. apply Forall_app. split; [eapply Forall_impl; [|exact P']; cbv beta; tauto|].
    constructor; [split; [reflexivity|cbn; intuition discriminate]|]. apply fq_host, H.
Qed.

(** ** What a host is read as *)
Lemma host_char_eq c : host_char c = (in_userb c || oneof ":[]<>""" c).
Proof.
  apply eq_true_iff_eq. split.
  - revert c. apply by_check. vm_compute. reflexivity.
  - revert c. apply (by_check (fun c => in_userb c || oneof ":[]<>""" c)). vm_compute. reflexivity.
Qed.
Lemma host_char_iff c : host_char c = true <-> unreserved c \/ sub_delim c \/ chars ":[]<>""" c.
Proof. rewrite host_char_eq, orb_true_iff, oneof_chars, in_userb_iff. unfold in_user. tauto. Qed.
Lemma reads_unescape e v : host_reads e v -> unescape EHost e = Some v.
Proof.
  induction 1 as [|c e v S H IH|a b x y e v A C X H IH|e v H IH]; cbn [unescape].
  - reflexivity.
  - assert (N : c <> ch 37). { intros ->. destruct S as [S|[S|[S|S]]]; [apply unreservedb_iff in S; discriminate S|apply sub_delimb_iff in S; discriminate S|apply oneof_chars in S; discriminate S|vm_compute in S; lia]. }
    destruct (Ascii.eqb_spec c (ch 37)); [congruence|]. cbn [is_query is_host andb]. rewrite andb_false_r. cbn [andb].
    assert (K : (code c <? 128)%nat && negb (host_char c) = false).
    { assert (S' : host_char c = true \/ (128 <= nat_of_ascii c)%nat) by (rewrite host_char_iff; tauto). destruct S' as [->|L]; [apply andb_false_r|]. unfold code. destruct (Nat.ltb_spec (nat_of_ascii c) 128); [lia|reflexivity]. }
    rewrite K, IH. reflexivity.
  - change (Ascii.eqb (ch 37) (ch 37)) with true. cbv iota. rewrite (unhex_digit _ _ A), (unhex_digit _ _ C). cbn [is_host andb]. destruct (Nat.ltb_spec x 8); [lia|]. cbn [andb]. rewrite IH. reflexivity.
  - change (B "%25" ++ e) with (ch 37 :: ch 50 :: ch 53 :: e). cbn [unescape]. change (Ascii.eqb (ch 37) (ch 37)) with true. cbv iota. rewrite (unhex_digit (ch 50) 2) by (left; reflexivity). rewrite (unhex_digit (ch 53) 5) by (left; reflexivity).
    rewrite !Ascii.eqb_refl. cbn [is_host andb negb]. rewrite andb_false_r, IH. reflexivity.
Qed.
Lemma unescape_host_reads e : forall v, unescape EHost e = Some v -> host_reads e v.
Proof.
  induction e as [e IH] using (well_founded_induction (well_founded_ltof _ (@length ascii))). unfold ltof in IH. intros v E. destruct e as [|x r]; cbn [unescape] in E; [injection E as <-; constructor|].
  destruct (Ascii.eqb_spec x (ch 37)) as [->|N].
  - destruct r as [|a [|b r]]; [discriminate E|discriminate E|]. destruct (unhex a) as [h|] eqn:Ha; [|discriminate E]. destruct (unhex b) as [l|] eqn:Hb; [|discriminate E].
    cbn [is_host andb] in E. destruct (Nat.ltb_spec h 8) as [L|L]; cbn [andb] in E.
    + destruct (Ascii.eqb_spec a (ch 50)) as [->|]; [|discriminate E]. destruct (Ascii.eqb_spec b (ch 53)) as [->|]; [|discriminate E]. cbn [andb negb] in E.
      destruct (unescape EHost r) as [w|] eqn:Er; [|discriminate E]. injection E as <-. rewrite (unhex_digit (ch 50) 2) in Ha by (left; reflexivity). rewrite (unhex_digit (ch 53) 5) in Hb by (left; reflexivity).
      injection Ha as <-. injection Hb as <-. apply (hr_percent r w). apply IH; [cbn [length]; lia|exact Er].
    + destruct (unescape EHost r) as [w|] eqn:Er; [|discriminate E]. injection E as <-. apply hr_byte; [apply unhex_inv, Ha|apply unhex_inv, Hb|exact L|]. apply IH; [cbn [length]; lia|exact Er].
  - cbn [is_query is_host andb] in E. rewrite andb_false_r in E. cbn [andb] in E. destruct ((code x <? 128)%nat && negb (host_char x)) eqn:K; [discriminate E|].
    destruct (unescape EHost r) as [w|] eqn:Er; [|discriminate E]. injection E as <-. apply hr_char; [|apply IH; [cbn [length]; lia|exact Er]].
    apply andb_false_iff in K. destruct K as [K|K]; [apply Nat.ltb_ge in K; unfold code in K; tauto|]. apply negb_false_iff, host_char_iff in K. tauto.
Qed.
Lemma digit_model_iff c : is_digit c = true <-> digit c.
Proof. split; [|apply digit_model]. intros H. apply digitb_iff. revert c H. apply by_check. vm_compute. reflexivity. Qed.
Lemma cut_last_inv c s a b : cut_last c s = Some (a, b) -> s = a ++ c :: b /\ ~ In c b.
Proof.
  revert a b. induction s as [|x r IH]; cbn [cut_last]; intros a b E; [discriminate E|]. destruct (cut_last c r) as [[a' b']|] eqn:K.
  - injection E as <- <-. destruct (IH _ _ eq_refl) as [-> N]. split; [reflexivity|exact N].
  - destruct (Ascii.eqb_spec x c) as [->|N]; [|discriminate E]. injection E as <- <-. split; [reflexivity|].
    clear IH. intros I. induction r as [|y r IH]; [destruct I|]. cbn [cut_last] in K. destruct (cut_last c r) as [[? ?]|]; [discriminate K|]. destruct (Ascii.eqb_spec y c) as [->|N]; [discriminate K|]. destruct I as [I|I]; [congruence|exact (IH eq_refl I)].
Qed.
Lemma cut_last_none_inv c s : cut_last c s = None -> ~ In c s.
Proof.
  induction s as [|x r IH]; cbn [cut_last]; intros E; [intros []|]. destruct (cut_last c r) as [[? ?]|]; [discriminate E|]. destruct (Ascii.eqb_spec x c) as [->|N]; [discriminate E|]. intros [->|I]; [congruence|exact (IH eq_refl I)].
Qed.
Lemma parse_host_exact lit sch h v : ~ In (ch 91) h -> (parse_host lit sch h = Some v <-> port_ok (is_pg sch = true) h /\ host_reads h v).
Proof.
  intros N. unfold parse_host. rewrite (has_not _ _ N).
  assert (U : unescape EHost h = Some v <-> host_reads h v) by (split; [apply unescape_host_reads|apply reads_unescape]).
  assert (D : forall p, forallb is_digit p = true <-> Forall digit p). { intros p. rewrite forallb_forall, Forall_forall. split; intros H c I; apply digit_model_iff, H, I. }
  assert (D58 : forall p, Forall digit p -> ~ In (ch 58) p). { intros p F I. rewrite Forall_forall in F. specialize (F _ I). apply digit_model_iff in F. discriminate F. }
  destruct (is_pg sch).
  - destruct (cut_last (ch 58) h) as [[a b]|] eqn:E; cbn [option_map snd].
    + apply cut_last_inv in E. destruct E as [-> Nb]. destruct (forallb is_digit b) eqn:F.
      * rewrite U. split; [intros H; split; [|exact H]|tauto]. right. exists a, b. split; [reflexivity|]. split; [apply D, F|congruence].
      * split; [discriminate|]. intros [[H|(a' & b' & E' & F' & _)] _]; [destruct H; apply in_or_app; right; left; reflexivity|]. assert (Nb' := D58 _ F').
        pose proof (cut_last_some (ch 58) a b Nb) as C1. rewrite E', (cut_last_some (ch 58) a' b' Nb') in C1. injection C1 as <- <-. apply D in F'. congruence.
    + rewrite U. apply cut_last_none_inv in E. split; [intros H; split; [left; exact E|exact H]|tauto].
  - destruct (cut (ch 58) h) as [[a b]|] eqn:E; cbn [option_map snd].
    + apply cut_inv in E. destruct E as [-> Na]. destruct (forallb is_digit b) eqn:F.
      * rewrite U. split; [intros H; split; [|exact H]|tauto]. right. exists a, b. split; [reflexivity|]. split; [apply D, F|intros _; exact Na].
      * split; [discriminate|]. intros [[H|(a' & b' & E' & F' & Na')] _]; [destruct H; apply in_or_app; right; left; reflexivity|]. assert (Na'' : ~ In (ch 58) a') by (apply Na'; discriminate).
        pose proof (cut_some (ch 58) a b Na) as C1. rewrite E', (cut_some (ch 58) a' b' Na'') in C1. injection C1 as <- <-. apply D in F'. congruence.
    + rewrite U. apply cut_none_inv in E. split; [intros H; split; [left; exact E|exact H]|tauto].
Qed.
Lemma is_pg_iff sch : is_pg (map lower_ascii sch) = true <-> pg_scheme sch.
Proof. unfold is_pg, pg_scheme. rewrite orb_true_iff, !beqb_eq. cbn [In]. split; intros [H|H]; auto; try (destruct H as [H|[]]); auto. Qed.
Lemma port_ok_iff (P Q : Prop) h : (P <-> Q) -> (port_ok P h <-> port_ok Q h).
Proof. intros E. unfold port_ok. split; (intros [H|(a & b & H)]; [left; exact H|right; exists a, b; tauto]). Qed.
(** ** Quotes and blanks around a data source *)
Lemma blank_spaces c : blank c <-> In c spaces.
Proof.
  unfold blank, spaces. cbn [In]. split.
  - intros H. assert (X : ascii_of_nat (nat_of_ascii c) = c) by apply ascii_nat_embedding. repeat (destruct H as [H|H]; [rewrite <- H in X; rewrite <- X; vm_compute; tauto|]). destruct H.
  - intros H. repeat (destruct H as [<-|H]; [vm_compute; tauto|]). destruct H.
Qed.
Lemma trim_around cs p s q : Forall (fun c => In c cs) p -> Forall (fun c => In c cs) q -> trim cs (p ++ s ++ q) = trim cs s.
Proof.
  intros P Q. assert (IN : forall l, Forall (fun c => In c cs) l -> Forall (fun c => in_set cs c = true) l) by (intros l; apply Forall_impl; intros c; apply in_set_in).
  assert (R : forall l, trim_right cs (l ++ q) = trim_right cs l). { intros l. unfold trim_right. rewrite rev_app_distr, trim_left_app_in; [reflexivity|]. apply IN, Forall_rev, Q. }
  unfold trim. rewrite trim_left_app_in by (apply IN, P). destruct (trim_left cs s) as [|c r] eqn:E.
  - destruct (trim_left_split cs s) as (p' & Es & F). rewrite E, app_nil_r in Es. subst p'. rewrite trim_left_app_in by exact F. pose proof (trim_left_app_in cs q [] (IN _ Q)) as X. rewrite app_nil_r in X. rewrite X. reflexivity.
  - destruct (trim_left_split cs s) as (p' & Es & F). rewrite E in Es. rewrite Es, <- app_assoc, trim_left_app_in by exact F.
    assert (Hc : in_set cs c = false). { destruct (in_set cs c) eqn:K; [|reflexivity]. pose proof (trim_left_idem cs s) as I. rewrite E in I. cbn [trim_left] in I. rewrite K in I. pose proof (trim_left_le cs r) as L. rewrite I in L. cbn [length] in L. lia. }
    change ((c :: r) ++ q) with (c :: (r ++ q)). rewrite trim_left_head by exact Hc. change (c :: r ++ q) with ((c :: r) ++ q). apply R.
Qed.
Lemma trim_ends1 cs a m z : ~ In a cs -> ~ In z cs -> trim cs (a :: m ++ [z]) = a :: m ++ [z] /\ trim cs [a] = [a].
Proof. intros A Z. split; [apply trim_ends; [exact A|constructor; [exact Z|constructor]|discriminate]|apply trim_none; constructor; [exact A|constructor]]. Qed.
Lemma clean_around q1 b1 s b2 q2 : Forall (fun c => c = ch 34) q1 -> Forall blank b1 -> bare s -> Forall blank b2 -> Forall (fun c => c = ch 34) q2 -> clean_ds (q1 ++ b1 ++ s ++ b2 ++ q2) = s.
Proof.
  intros Q1 B1 (a & m & z & E & Ha & Qa & Hz & Qz) B2 Q2.
  assert (IQ : forall l, Forall (fun c => c = ch 34) l -> Forall (fun c => In c [ch 34]) l) by (intros l; apply Forall_impl; intros c ->; left; reflexivity).
  assert (IB : forall l, Forall blank l -> Forall (fun c => In c spaces) l) by (intros l; apply Forall_impl; intros c; apply blank_spaces).
  rewrite blank_spaces in Ha, Hz. unfold clean_ds.
  replace (q1 ++ b1 ++ s ++ b2 ++ q2) with (q1 ++ (b1 ++ s ++ b2) ++ q2) by (rewrite <- !app_assoc; reflexivity). rewrite trim_around by (apply IQ; assumption).
  assert (T : trim [ch 34] (b1 ++ s ++ b2) = b1 ++ s ++ b2).
  { assert (Hd : exists c r, b1 ++ s ++ b2 = c :: r /\ ~ In c [ch 34]).
    { destruct b1 as [|c r]; [|exists c, (r ++ s ++ b2); split; [reflexivity|]; inversion B1 as [|? ? Hc _]; subst; intros [<-|[]]; vm_compute in Hc; intuition discriminate].
      destruct E as [[-> _]| ->]; eexists _, _; (split; [reflexivity|intros [X|[]]; congruence]). }
    assert (Tl : exists l c, b1 ++ s ++ b2 = l ++ [c] /\ ~ In c [ch 34]).
    { destruct (@exists_last _ (s ++ b2)) as (l & c & El); [destruct E as [[-> _]| ->]; discriminate|]. exists (b1 ++ l), c. rewrite El, <- app_assoc. split; [reflexivity|].
      assert (I : In c b2 \/ c = z).
      { destruct b2 as [|d b2'] using rev_ind.
        - rewrite app_nil_r in El. right. destruct E as [[-> ->]| ->]; [change [a] with ([] ++ [a]) in El; apply app_inj_tail in El; symmetry; tauto|change (a :: m ++ [z]) with ((a :: m) ++ [z]) in El; apply app_inj_tail in El; symmetry; tauto].
        - left. rewrite app_assoc in El. apply app_inj_tail in El. destruct El as [_ ->]. apply in_or_app. right. left. reflexivity. }
      intros [<-|[]]. destruct I as [I|I]; [|congruence]. rewrite Forall_forall in B2. specialize (B2 _ I). vm_compute in B2. intuition discriminate. }
    destruct Hd as (c & r & E1 & N1), Tl as (l & d & E2 & N2). rewrite E1 in *. destruct l as [|c' l].
    - cbn [app] in E2. injection E2 as -> ->. apply (trim_ends1 [ch 34] d [] d N1 N1).
    - cbn [app] in E2. injection E2 as -> ->. apply (trim_ends1 [ch 34] c' l d N1 N2). }
  rewrite T, trim_around by (apply IB; assumption). destruct (trim_ends1 spaces a m z Ha Hz) as [T1 T2]. destruct E as [[-> _]| ->]; assumption.
Qed.
Lemma authority_chars cred u p : credentials cred u p -> Forall (fun c => quietb c = true /\ ~ In c [ch 47; ch 63]) cred.
Proof.
  intros [(-> & _)|(eu & ep & U & P & ->)]; [constructor|]. apply Forall_app. split; [eapply fq_user; eassumption|]. constructor; [split; [reflexivity|cbn; intuition discriminate]|]. apply Forall_app. split; [eapply fq_password; eassumption|].
  constructor; [split; [reflexivity|cbn; intuition discriminate]|constructor].
Qed.
Lemma parse_authority_host lit sch cred u p h : credentials cred u p -> ~ In (ch 64) h ->
  exists ui, match ui with Some (n, _) => n | None => [] end = u /\ match ui with Some (_, Some w) => w | _ => [] end = p /\
  parse_authority lit sch (cred ++ h) = match parse_host lit sch h with Some v => Some (ui, v) | None => None end.
Proof.
  intros C N. unfold parse_authority. destruct C as [(-> & -> & ->)|(eu & ep & U & P & ->)].
  - exists None. split; [reflexivity|]. split; [reflexivity|]. cbn [app]. rewrite cut_last_none by exact N. destruct (parse_host lit sch h); reflexivity.
  - destruct (enc_user _ _ U) as [Uu Fu], (enc_password _ _ P) as [Up Fp]. exists (Some (u, Some p)). split; [reflexivity|]. split; [reflexivity|].
    replace ((eu ++ ch 58 :: ep ++ [ch 64]) ++ h) with ((eu ++ ch 58 :: ep) ++ ch 64 :: h) by (rewrite <- !app_assoc; cbn [app]; rewrite <- app_assoc; reflexivity).
    rewrite cut_last_some by exact N. destruct (parse_host lit sch h) as [v|]; [|reflexivity].
    assert (V : forallb user_char (eu ++ ch 58 :: ep) = true).
    { apply forallb_forall. intros c I. rewrite Forall_forall in Fu, Fp. rewrite in_app_iff in I. cbn [In] in I. unfold user_textb in *. destruct I as [I|[<-|I]]; [destruct (Fu _ I) as [X _]|reflexivity|specialize (Fp _ I) as X]; rewrite !andb_true_iff in X; tauto. }
    rewrite V. cbn [negb]. rewrite cut_some by (intros I; rewrite Forall_forall in Fu; destruct (Fu _ I); congruence). rewrite Uu, Up. reflexivity.
Qed.
Lemma quiet_ctl s : Forall (fun c => quietb c = true) s -> Forall (fun c => is_ctl c = false /\ c <> ch 35) s.
Proof. apply Forall_impl. intros c H. unfold quietb in H. apply andb_true_iff in H. destruct H as [H1 H2]. split; [apply negb_true_iff, H1|intros ->; discriminate H2]. Qed.
(** A host that may be refused *)
Lemma parse_hosts lit sch cred u p h path : scheme_text sch -> credentials cred u p -> Forall in_authority h -> path_text path -> path <> [] ->
  let s := sch ++ B "://" ++ (cred ++ h) ++ path in
  bare s /\ parse_url lit s = match parse_authority lit (map lower_ascii sch) (cred ++ h) with Some (ui, v) => Some (mkUrl (map lower_ascii sch) ui v []) | None => None end.
Proof.
  intros S C H P Pn s. destruct (path_facts _ P) as [PF PP]. pose proof (authority_chars _ _ _ C) as CF. pose proof (scheme_chars _ S) as SQ. rewrite Forall_forall in H. split.
  - assert (QB : forall c, quietb c = true -> ~ blank c /\ c <> ch 34).
    { intros c Hc. split; [|intros ->; discriminate Hc]. rewrite blank_spaces. intros I. unfold spaces in I. cbn [In] in I. repeat (destruct I as [<-|I]; [discriminate Hc|]). exact I. }
    destruct (@exists_last _ path Pn) as (l & z & ->). destruct sch as [|a r]; [destruct S|]. exists a, (r ++ B "://" ++ (cred ++ h) ++ l), z.
    assert (Qz : quietb z = true) by (rewrite Forall_forall in PF; apply PF, in_or_app; right; left; reflexivity).
    assert (Qa : quietb a = true) by (inversion SQ; assumption).
    split; [right; unfold s; rewrite <- ?app_comm_cons, <- ?app_assoc; reflexivity|]. destruct (QB _ Qa), (QB _ Qz). repeat split; assumption.
  - pose proof (parse_text lit sch (cred ++ h) path [] [] S) as T. rewrite !app_nil_r in T. apply T; clear T; try exact PP; try (left; split; reflexivity).
    + apply quiet_ctl in SQ. rewrite Forall_forall in SQ, CF, PF. rewrite !in_app_iff. intros [I|[[I|I]|I]]; [destruct (SQ _ I); congruence| | |].
      * destruct (CF _ I) as [X _]. discriminate X.
      * destruct (H _ I) as (_ & _ & X). apply X. vm_compute. tauto.
      * destruct (PF _ I) as [X _]. discriminate X.
    + apply not_true_iff_false. rewrite existsb_exists. intros (c & I & K). apply quiet_ctl in SQ. rewrite Forall_forall in SQ, CF, PF. rewrite !in_app_iff in I.
      assert (QC : quietb c = true -> False) by (intros X; unfold quietb in X; rewrite K in X; discriminate X).
      destruct I as [I|[[I|I]|I]]; [destruct (SQ _ I); congruence|apply QC, (CF _ I)| |apply QC, (PF _ I)].
      destruct (H _ I) as (L & N & _). unfold is_ctl, code in K. apply orb_true_iff in K. destruct K as [K|K]; [apply Nat.ltb_lt in K; lia|apply Nat.eqb_eq in K; congruence].
    + rewrite Forall_forall in CF. rewrite in_app_iff. intros [I|I]; [apply (CF _ I); cbn; tauto|destruct (H _ I) as (_ & _ & X); apply X; vm_compute; tauto].
    + rewrite Forall_forall in CF. rewrite in_app_iff. intros [I|I]; [apply (CF _ I); cbn; tauto|destruct (H _ I) as (_ & _ & X); apply X; vm_compute; tauto].
    + intros I. rewrite Forall_forall in PF. destruct (PF _ I) as (_ & X & _). congruence.
    + intros I. rewrite Forall_forall in PF. destruct (PF _ I) as (_ & _ & X). congruence.
Qed.
