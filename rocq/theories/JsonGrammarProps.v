(** Property theorems C181: which texts the JSON columns accept. *)
From Verif Require Import GoBase GoBaseFacts IdModel TypeModel TypeSpec ParamModel JsonModel JsonSpec JsonProofs JsonGrammar JsonGrammarProofs JsonGrammarFull ParamSpec ParamProps JsonProps.
Open Scope Z_scope.

(** ** C181: A JSON column accepts exactly JSON of its type *)
(** The parser in all theorems on JSON is RFC 8259 (JsonGrammar): it accepts exactly
    the texts of the grammar, with the values these stand for, and a text stands for
    one value only. *)
Theorem C181_grammar : forall t v, parse_json t = Some v <-> document t v.
Proof. exact grammar. Qed.
Theorem C181_unique : forall t v w, document t v -> document t w -> v = w.
Proof. intros t v w H1 H2. apply grammar in H1, H2. congruence. Qed.
Lemma not_empty v : ~ document [] v.
Proof. intros H. apply grammar in H. discriminate H. Qed.
Lemma text_cases t v : document t v -> is_empty t = false. Proof. destruct t; [intros H; destruct (not_empty v H)|reflexivity]. Qed.
Definition text_or_null (v : json) : Prop := v = JNull \/ exists s, v = JStr s.
Definition texts_or_null (v : json) : Prop := v = JNull \/ exists l, v = JArr l /\ Forall text_or_null l.
Lemma meta_elem_ok v : snd (meta_elem v) = true <-> text_or_null v.
Proof. unfold text_or_null. destruct v; cbn; split; intros H; try discriminate; try reflexivity; eauto; destruct H as [H|(s' & H)]; discriminate. Qed.
Lemma elems_ok l : forall back, snd (into_elems back l) = true <-> Forall text_or_null l.
Proof.
  induction l as [|v l IH]; intros back; cbn [into_elems]; [split; [constructor|reflexivity]|]. specialize (IH (tl back)). destruct (into_elems (tl back) l) as [xs ok2]. cbn [snd] in IH.
  assert (V : forall b, snd (into_string b v) = true <-> text_or_null v) by (intros b; rewrite <- (meta_elem_ok v); destruct v; reflexivity).
  specialize (V (match back with b :: _ => b | [] => [] end)). destruct (into_string _ v) as [x ok1]. cbn [snd] in *. rewrite andb_true_iff, V, IH. split; [intros []; constructor; assumption|intros H; inversion H; auto].
Qed.
Lemma slice_ok old back v : snd (into_slice old back v) = true <-> texts_or_null v.
Proof.
  unfold texts_or_null. destruct v as [| | | |l|]; cbn [into_slice snd]; try (split; [discriminate|intros [H|(l' & H & _)]; discriminate]); [split; auto|].
  pose proof (elems_ok l back) as K. destruct (into_elems back l) as [xs ok]. cbn [snd] in *. rewrite K. split; [eauto|]. intros [H|(l' & [= <-] & H)]; [discriminate|exact H].
Qed.
Lemma map_scan_ok {V} (elem : json -> V * bool) (good : json -> Prop) old t x : (forall v, snd (elem v) = true <-> good v) -> x = AStr t \/ x = ABytes t ->
  (snd (map_scan elem old x) = true <-> t = [] \/ document t JNull \/ exists l, document t (JObj l) /\ forall k v, In (k, v) l -> good v).
Proof.
  intros G X. assert (E : map_scan elem old x = if is_empty t then (Some [], true) else match parse_json t with None => (old, false) | Some v => into_map elem old v end) by (destruct X as [-> | ->]; reflexivity). rewrite E.
  destruct t as [|c t]; [cbn [is_empty snd]; tauto|]. cbn [is_empty]. set (s := c :: t). assert (NE : s <> []) by discriminate. clearbody s.
  assert (N : forall o, parse_json s = o -> forall w, document s w -> o = Some w) by (intros o <- w H; apply grammar, H).
  destruct (parse_json s) as [v|] eqn:P; specialize (N _ eq_refl).
  - pose proof (proj1 (grammar _ _) P) as D. destruct v as [| | | | |l]; cbn [into_map snd]; try (split; [discriminate|]; intros [H|[H|(l0 & H & _)]]; [contradiction|apply N in H; discriminate|apply N in H; discriminate]); [split; auto|].
    rewrite forallb_forall. split.
    + intros H. right. right. exists l. split; [exact D|]. intros k v I. apply G. exact (H (k, v) I).
    + intros [H|[H|(l0 & H & F)]]; [contradiction|apply N in H; discriminate|]. apply N in H. injection H as <-. intros [k v] I. apply G. exact (F k v I).
  - cbn [snd]. split; [discriminate|]. intros [H|[H|(l0 & H & _)]]; [contradiction|apply N in H; discriminate|apply N in H; discriminate].
Qed.
(** Metadata: the empty text, null, or an object whose members are strings or null. *)
Theorem C181_metadata : forall old t x, x = AStr t \/ x = ABytes t ->
  (snd (metadata_scan old x) = true <-> t = [] \/ document t JNull \/ exists l, document t (JObj l) /\ forall k v, In (k, v) l -> v = JNull \/ exists s, v = JStr s).
Proof. intros old t x X. exact (map_scan_ok meta_elem text_or_null old t x meta_elem_ok X). Qed.
(** KVSet: the same with arrays of strings and nulls. *)
Theorem C181_kvset : forall old t x, x = AStr t \/ x = ABytes t ->
  (snd (kvset_scan old x) = true <-> t = [] \/ document t JNull \/ exists l, document t (JObj l) /\ forall k v, In (k, v) l -> texts_or_null v).
Proof. intros old t x X. exact (map_scan_ok kv_elem texts_or_null old t x (slice_ok None []) X). Qed.
(** Strings: an array of strings and nulls. *)
Theorem C181_strings : forall show old back t,
  snd (strings_scan show old back (AStr t)) = true <-> t = [] \/ exists v, document t v /\ texts_or_null v.
Proof.
  intros show old back t. cbn [strings_scan sprint as_string]. destruct t as [|c t]; [cbn [is_empty snd]; tauto|]. cbn [is_empty]. set (s := c :: t). assert (NE : s <> []) by discriminate. clearbody s.
  destruct (parse_json s) as [v|] eqn:P.
  - rewrite slice_ok. split; [intros H; right; exists v; split; [apply grammar, P|exact H]|]. intros [H|(w & D & H)]; [contradiction|]. apply grammar in D. rewrite P in D. injection D as <-. exact H.
  - cbn [snd]. split; [discriminate|]. intros [H|(w & D & _)]; [contradiction|]. apply grammar in D. congruence.
Qed.
(** What is not JSON is refused and changes nothing. *)
Theorem C181_refused : forall t, t <> [] -> (forall v, ~ document t v) ->
  (forall old x, x = AStr t \/ x = ABytes t -> metadata_scan old x = (old, false) /\ forall old', kvset_scan old' x = (old', false)) /\
  (forall show old back, strings_scan show old back (AStr t) = (old, false)).
Proof.
  intros t N D. assert (P : parse_json t = None) by (destruct (parse_json t) as [v|] eqn:P; [exfalso; exact (D v (proj1 (grammar _ _) P))|reflexivity]). destruct t as [|c t]; [congruence|].
  split; [intros old x X; destruct X as [-> | ->]|intros show old back]; unfold metadata_scan, kvset_scan, strings_scan; cbn [map_scan sprint as_string is_empty]; rewrite P; auto.
Qed.
Example C181_ex : document (B " {""a"" : ""\u00e9\ud83d\ude00\ud800"",""b"":null} ") (JObj [(B "a", JStr (map zb [195; 169; 240; 159; 152; 128; 239; 191; 189])); (B "b", JNull)]) /\
  (forall v, ~ document (B "{""a"":01}") v) /\ (forall v, ~ document (B "{""a"":""b"",}") v) /\ (forall v, ~ document (dquote :: ascii_of_nat 10 :: [dquote]) v) /\ (forall v, ~ document (B "[1] 2") v).
Proof.
  split; [apply grammar; vm_compute; reflexivity|]. repeat split; intros v H; apply grammar in H; vm_compute in H; discriminate H.
Qed.

(** What is stored. *)
Theorem C181_metadata_value : forall old t x, x = AStr t \/ x = ABytes t ->
  (document t JNull -> metadata_scan old x = (None, true)) /\
  (forall l, document t (JObj l) -> forall k, mget (fst (metadata_scan old x)) k = match last_member k l with Some (JStr s) => Some s | Some _ => Some [] | None => mget old k end).
Proof.
  intros old t x X. split.
  - intros D. pose proof (text_cases _ _ D) as E. apply grammar in D. destruct X as [-> | ->]; unfold metadata_scan, map_scan; rewrite E, D; reflexivity.
  - intros l D. apply grammar in D. exact (proj1 (C124_exact_partial old t l D x X)).
Qed.
Definition list_of (v : json) : option (list bytes) :=
  match v with JArr l => Some (map (fun e => match e with JStr s => s | _ => [] end) l) | _ => None end.
Lemma elems_new l : fst (into_elems [] l) = map (fun e => match e with JStr s => s | _ => [] end) l.
Proof.
  induction l as [|v l IH]; [reflexivity|]. cbn [into_elems tl map]. destruct (into_elems [] l) as [xs ok2]. cbn [fst] in IH. subst xs. destruct v; reflexivity.
Qed.
Lemma kv_elem_value v : fst (kv_elem v) = list_of v.
Proof. unfold kv_elem, list_of. destruct v as [| | | |l|]; try reflexivity. rewrite <- elems_new. cbn [into_slice]. destruct (into_elems [] l). reflexivity. Qed.
Theorem C181_kvset_value : forall old t x, x = AStr t \/ x = ABytes t ->
  (document t JNull -> kvset_scan old x = (None, true)) /\
  (forall l, document t (JObj l) -> forall k, mget (fst (kvset_scan old x)) k = match last_member k l with Some v => Some (list_of v) | None => mget old k end).
Proof.
  intros old t x X. split.
  - intros D. pose proof (text_cases _ _ D) as E. apply grammar in D. destruct X as [-> | ->]; unfold kvset_scan, map_scan; rewrite E, D; reflexivity.
  - intros l D k. pose proof (text_cases _ _ D) as E. apply grammar in D.
    assert (S : kvset_scan old x = into_map kv_elem old (JObj l)) by (destruct X as [-> | ->]; unfold kvset_scan, map_scan; rewrite E, D; reflexivity). rewrite S. cbn [into_map fst]. unfold mget. cbn [entries].
    rewrite (fold_put_last (fun v => fst (kv_elem v)) l (entries old) k). destruct (last_member k l); [rewrite kv_elem_value|]; reflexivity.
Qed.
(** A null in the array keeps what the backing array of the destination has there. *)
Theorem C181_strings_value : forall show old back t, (document t JNull -> strings_scan show old back (AStr t) = (None, true)) /\
  (forall l, document t (JArr l) -> Forall text_or_null l -> exists xs, strings_scan show old back (AStr t) = (Some xs, true) /\ length xs = length l /\
    forall i v, nth_error l i = Some v -> nth_error xs i = Some (match v with JStr s => s | _ => nth i back [] end)).
Proof.
  intros show old back t. split.
  - intros D. pose proof (text_cases _ _ D) as E. apply grammar in D. cbn [strings_scan sprint as_string]. rewrite E, D. reflexivity.
  - intros l D F. pose proof (text_cases _ _ D) as E. apply grammar in D. cbn [strings_scan sprint as_string]. rewrite E, D. cbn [into_slice]. pose proof (proj2 (elems_ok l back) F) as Ok.
    assert (K : forall l back, Forall text_or_null l -> length (fst (into_elems back l)) = length l /\ forall i v, nth_error l i = Some v -> nth_error (fst (into_elems back l)) i = Some (match v with JStr s => s | _ => nth i back [] end)).
    { clear. induction l as [|v l IH]; intros back F; [split; [reflexivity|intros [|i] v H; discriminate H]|]. inversion F as [|? ? Fv Fl]; subst. destruct (IH (tl back) Fl) as [L H]. cbn [into_elems].
      destruct (into_elems (tl back) l) as [xs ok2]. cbn [fst] in *. destruct (into_string (match back with b :: _ => b | [] => [] end) v) as [x ok1] eqn:Ev. cbn [fst length]. split; [lia|].
      intros [|i] w Hw; cbn [nth_error] in *.
      - injection Hw as <-. destruct Fv as [->|[s ->]]; cbn in Ev; injection Ev as <- _; [destruct back|]; reflexivity.
      - rewrite (H i w Hw). destruct w, back; try reflexivity; destruct i; reflexivity. }
    specialize (K l back F). destruct (into_elems back l) as [xs ok]. cbn [fst snd] in *. exists xs. rewrite Ok. destruct K. auto.
Qed.
(** Only a nil list is stored as NULL. *)
Theorem C121_null_iff : forall l, strings_value l = ANil <-> l = None.
Proof. intros [l|]; split; intros H; try discriminate; reflexivity. Qed.
(** A cursor is the base64 of a JSON object or null; everything else is refused. *)
Theorem C123_accepts_partial : forall s, decode_cursor s <> None <->
  Forall (fun c => url_char c = true) (filter not_newline s) /\ (length (filter not_newline s) mod 4)%nat <> 1%nat /\
  exists t, b64_decode s = Some t /\ (document t JNull \/ exists l, document t (JObj l)).
Proof.
  intros s. unfold decode_cursor. pose proof (C64_accepts s) as A. split.
  - intros H. destruct (b64_decode s) as [t|]; [|congruence]. destruct (proj1 A ltac:(discriminate)) as [A1 A2]. split; [exact A1|]. split; [exact A2|]. exists t. split; [reflexivity|].
    destruct (parse_json t) as [[| | | | |l]|] eqn:P; try congruence; apply grammar in P; eauto.
  - intros (_ & _ & t & -> & [D|[l D]]); apply grammar in D; rewrite D; [discriminate|]. cbn [json_cval]. discriminate.
Qed.
Example C123_accepts_ex : decode_cursor (B "e30") = Some (Some []) /\ decode_cursor (B "e30=") = None /\ decode_cursor (B "W10") = None /\ decode_cursor (B "e3") = None. Proof. vm_compute. auto. Qed.

(** ** Assumptions *)
Print Assumptions C181_grammar.
Print Assumptions C181_unique.
Print Assumptions C181_metadata.
Print Assumptions C181_kvset.
Print Assumptions C181_strings.
Print Assumptions C181_refused.
Print Assumptions C181_metadata_value.
Print Assumptions C181_kvset_value.
Print Assumptions C181_strings_value.
Print Assumptions C121_null_iff.
Print Assumptions C123_accepts_partial.
