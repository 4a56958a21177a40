(** Property theorems C179-C180: JSON of generated rows. *)
From Verif Require Import GoBase GoBaseFacts IdModel IdSpec FloatModel FloatSpec TypeModel TypeSpec ParamModel ParamSpec TimeModel TimeSpec TimeZone JsonModel JsonSpec JsonProofs AnySpec AnyProofs RecordModel RecordSpec RecordProofs RecordLocal JsonGrammar JsonGrammarFull RecordFill.
From Verif Require ParamProps.
From Coq Require Import Lia.
Open Scope Z_scope.

(** Texts of the other packages that satisfy what is asked of them. *)
Definition a_codec : codec := mkCodec exact_text (fmt_int 10) (GoBase.parse_int 64) b64_encode b64_decode (map lower_ascii) (fun n => match n with c :: _ => (65 <=? byte c) && (byte c <=? 90) | [] => false end).
Lemma a_codec_ok : codec_ok a_codec.
Proof.
  split; [exact exact_format|]. split.
  - intros b H _. split; [apply scan_int|]. cbn [read32 fmt32 a_codec]. apply parse_int_fmt; change (64 - 1) with 63; lia.
  - intros s. destruct (ParamProps.C64_cursor_roundtrip s) as (D & U & _). split; [|exact D]. eapply Forall_impl; [|exact U]. intros c Hc. unfold simple_char. clear -Hc. destruct c as [[] [] [] [] [] [] [] []]; vm_compute in Hc; try discriminate Hc; vm_compute; repeat split; congruence.
Qed.

(** ** C179: A generated row survives JSON *)
(** The struct with its exported fields marshaled and decoded into a fresh one: every
    exported field comes back (an empty slice as nil, a Time in UTC, a Float to the
    nearest millionth), the others are zero.  Partial: see below. *)
Theorem C179_row_partial : forall cd r, codec_ok cd -> NoDup (map fst r) ->
  Forall (fun f => utf8_text (fst f) /\ holds (snd f) /\ expressible (snd f) /\ texts (snd f)) r ->
  exists t r', row_text cd r = Some t /\ row_unjson cd (zero_row r) t = (r', true) /\
    Forall2 (fun f f' => fst f = fst f' /\ (exported cd (fst f) = true -> comes_back_in_row (snd f) (snd f')) /\ (exported cd (fst f) = false -> snd f' = zero_of (snd f))) r r'.
Proof. exact row_trip. Qed.
(** A value on its own, for example an IDArray: also an empty slice stays what it is. *)
Theorem C179_value_partial : forall cd v, codec_ok cd -> holds v -> expressible v -> texts v ->
  exists t w, value_text cd v = Some t /\ value_unjson cd (zero_of v) t = (w, true) /\ comes_back v w.
Proof. exact value_trip_alone. Qed.
(** json.Marshal fails exactly for numbers that are not finite and years that do not
    have four digits. *)
Theorem C179_fails : forall cd r, codec_ok cd -> Forall (fun f => holds (snd f)) r ->
  (row_text cd r = None <-> exists f, In f r /\ exported cd (fst f) = true /\ ~ expressible (snd f)).
Proof. exact row_fails. Qed.
(** Refuted: the exact value of a Float is lost, an empty slice becomes nil, bytes that
    are not UTF-8 are replaced, an infinite Float is not written at all. *)
Definition tiny : Z := 4502148214488346440 (* 1e-7 *).
Definition one_field (v : rval) : row := [(B "Field", v)].
Theorem C179_refuted : codec_ok a_codec /\ holds (RFloat tiny) /\ finite tiny /\ tiny <> 0 /\
  row_unjson a_codec (one_field (RFloat 0)) (match row_text a_codec (one_field (RFloat tiny)) with Some t => t | None => [] end) = (one_field (RFloat 0), true) /\
  row_unjson a_codec (one_field (RStrings None)) (match row_text a_codec (one_field (RStrings (Some ([], O)))) with Some t => t | None => [] end) = (one_field (RStrings None), true) /\
  row_unjson a_codec (one_field (RText [])) (match row_text a_codec (one_field (RText [ascii_of_nat 255])) with Some t => t | None => [] end) <> (one_field (RText [ascii_of_nat 255]), true) /\
  row_text a_codec (one_field (RFloat inf_bits)) = None.
Proof.
  split; [exact a_codec_ok|]. split; [unfold tiny, holds, pattern; lia|]. split; [split; [unfold tiny, pattern; lia|reflexivity]|]. split; [discriminate|].
  split; [vm_compute; reflexivity|]. split; [vm_compute; reflexivity|]. split; [vm_compute; discriminate|vm_compute; reflexivity].
Qed.
(** Refuted: decoding into a struct that was used does not make it the row, since zero
    values are not written and so keep what was there. *)
Theorem C179_used_refuted : exists r old t r', codec_ok a_codec /\ row_text a_codec r = Some t /\ row_unjson a_codec old t = (r', true) /\ map fst old = map fst r /\ r' = old /\ r' <> r.
Proof.
  exists (one_field (RInt64 0)), (one_field (RInt64 7)), (B "{}"), (one_field (RInt64 7)). split; [exact a_codec_ok|]. split; [reflexivity|]. split; [reflexivity|]. split; [reflexivity|]. split; [reflexivity|discriminate].
Qed.
Definition a_row : row :=
  [(B "ID", RId (id_new 42)); (B "Name", RText (B "a ""b"" <c>")); (B "Count", RInt 32 (-5)); (B "Rate", RFloat 4609434218613702656 (* 1.5 *)); (B "Active", RBool true);
   (B "Deleted", RGoBool false); (B "Data", RBytes (Some (B "xyz"))); (B "MemberIDs", RIds (Some ([id_new 1; id_new 2], 2%nat))); (B "Tags", RStrings (Some ([B "p"; B ""], 2%nat))); (B "cachedProps", RText (B "q"))].
Example C179_ex : Forall (fun f => utf8_text (fst f) /\ holds (snd f) /\ expressible (snd f) /\ texts (snd f)) a_row /\ NoDup (map fst a_row) /\
  row_text a_codec a_row = Some (B "{""ID"":42,""Name"":""a \""b\"" \u003cc\u003e"",""Count"":-5,""Rate"":1.500000,""Active"":true,""Data"":""eHl6"",""MemberIDs"":[1,2],""Tags"":[""p"",""""]}").
Proof.
  split; [|split; [|vm_compute; reflexivity]].
  - assert (U : forall s, repaired s = s -> utf8_text s) by (intros s E; rewrite <- E; apply repaired_is_text).
    repeat (constructor; [split; [apply U; vm_compute; reflexivity|]|]); [..|constructor]; (split; [|split]); cbn [snd holds expressible texts]; try exact I; try (apply U; vm_compute; reflexivity).
    + vm_compute. split; [discriminate|reflexivity].
    + split; lia.
    + unfold pattern. lia.
    + split; [unfold pattern; lia|reflexivity].
    + split; [cbn; lia|]. repeat constructor; vm_compute; congruence.
    + cbn. lia.
    + repeat (constructor; [apply U; vm_compute; reflexivity|]). constructor.
  - repeat (constructor; [cbn; intros X; repeat (destruct X as [X|X]; [discriminate X|]); exact X|]). constructor.
Qed.

(** ** C180: Decoding JSON into a row changes only the fields it names *)
(** Every text that is decoded without an error: each field went through the members
    that are for it, in the order of the document, and nothing else; a field without
    members keeps its value. *)
Theorem C180_members : forall cd r text l r', NoDup (map fst r) -> document text (JObj l) -> row_unjson cd r text = (r', true) ->
  Forall2 (fun f f' => fst f = fst f' /\ through cd (snd f) (filter (for_field cd (map fst r) (fst f)) l) (snd f')) r r'.
Proof. exact row_went. Qed.
(** Error or not, whatever the text: fields that are not exported or that no member is
    for are not touched. *)
Theorem C180_others : forall cd r text, Forall2 (fun f f' => fst f = fst f' /\
    ((forall l k v, document text (JObj l) -> In (k, v) l -> ~ names cd k (fst f)) -> f' = f)) r (fst (row_unjson cd r text)).
Proof.
  intros cd r text.
  assert (S : forall (Q : bytes * rval -> Prop) (r0 : row), Forall2 (fun f f' => fst f = fst f' /\ (Q f -> f' = f)) r0 r0) by (intros Q r0; induction r0; constructor; auto).
  unfold row_unjson. destruct (parse_json text) as [v|] eqn:P; [|apply S]. destruct v; try apply S.
  destruct (parts_object text _ P) as [M _]. pose proof (into_row_keeps cd (object_parts (skip_ws text)) r) as K. destruct (into_row cd r (object_parts (skip_ws text))) as [r' o]. cbn [fst] in *.
  eapply f2_impl; [|exact K]. intros f f' [A N]. split; [exact A|]. intros X. apply N. intros k Hk. apply in_map_iff in Hk as ([k' [w t]] & <- & Hk). cbn [fst].
  apply (X _ k' w (proj1 (grammar _ _) P)). rewrite <- M. apply in_map_iff. exists (k', (w, t)). split; [reflexivity|exact Hk].
Qed.
(** What is not JSON, or not an object or null, changes nothing and is an error. *)
Theorem C180_not_object : forall cd r text, (forall l, ~ document text (JObj l)) ->
  (document text JNull -> row_unjson cd r text = (r, true)) /\ (~ document text JNull -> row_unjson cd r text = (r, false)).
Proof.
  intros cd r text H. unfold row_unjson. split.
  - intros N. apply grammar in N. rewrite N. reflexivity.
  - intros N. destruct (parse_json text) as [[]|] eqn:P; try reflexivity; exfalso; [apply N|eapply H]; apply grammar; exact P.
Qed.
Example C180_ex : row_unjson a_codec a_row (B " { ""count"" : 7, ""Name"":null, ""tags"":[null,""z"",""w""], ""Extra"":{}, ""cachedprops"":""no"", ""COUNT"":8 } ") =
  ([(B "ID", RId (id_new 42)); (B "Name", RText (B "a ""b"" <c>")); (B "Count", RInt 32 8); (B "Rate", RFloat 4609434218613702656); (B "Active", RBool true);
   (B "Deleted", RGoBool false); (B "Data", RBytes (Some (B "xyz"))); (B "MemberIDs", RIds (Some ([id_new 1; id_new 2], 2%nat))); (B "Tags", RStrings (Some ([B "p"; B "z"; B "w"], 3%nat))); (B "cachedProps", RText (B "q"))], true) /\
  map (for_field a_codec (map fst a_row) (B "Count")) [(B "count", JNull); (B "Name", JNull); (B "COUNT", JNull)] = [true; false; true] /\
  exists l, document (B " { ""count"" : 7, ""Name"":null, ""tags"":[null,""z"",""w""], ""Extra"":{}, ""cachedprops"":""no"", ""COUNT"":8 } ") (JObj l) /\ length l = 6%nat.
Proof.
  split; [vm_compute; reflexivity|]. split; [vm_compute; reflexivity|]. eexists. split; [apply grammar; vm_compute; reflexivity|reflexivity].
Qed.

(** Members that are for no field are skipped without an error. *)
Theorem C180_unknown : forall cd r text l, document text (JObj l) ->
  (forall k v f, In (k, v) l -> In f r -> ~ names cd k (fst f)) -> row_unjson cd r text = (r, true).
Proof.
  intros cd r text l D U. apply grammar in D. unfold row_unjson. rewrite D. destruct (parts_object text l D) as [M _].
  assert (NF : forall p v t (q : row), (forall f, In f q -> p (fst f) = false) -> into_field cd p q v t = None).
  { intros p v t. induction q as [|[n x] q IH]; intros H; [reflexivity|]. cbn [into_field]. pose proof (H (n, x) (or_introl eq_refl)) as Hn. cbn [fst] in Hn. rewrite Hn, IH by (intros f I; apply H; right; exact I). reflexivity. }
  enough (G : forall ps, (forall k w t f, In (k, (w, t)) ps -> In f r -> ~ names cd k (fst f)) -> into_row cd r ps = (r, DOk)).
  { rewrite G; [reflexivity|]. intros k w t f I. apply (U k w). rewrite <- M. apply in_map_iff. exists (k, (w, t)). split; [reflexivity|exact I]. }
  induction ps as [|[k [w t]] ps IH]; intros H; [reflexivity|]. cbn [into_row]. unfold into_member.
  assert (X : forall f, In f r -> exported cd (fst f) && beqb (fst f) k = false /\ exported cd (fst f) && beqb (fold cd (fst f)) (fold cd k) = false).
  { intros f I. split; apply not_true_iff_false; intros [Y1 Y2]%andb_prop; apply beqb_eq in Y2; apply (H k w t f (or_introl eq_refl) I); (split; [exact Y1|]); [left|right]; symmetry; exact Y2. }
  rewrite !NF by (intros f I; apply X, I). rewrite IH by (intros k' w' t' f I; apply (H k' w' t' f); right; exact I). reflexivity.
Qed.
Example C180_unknown_ex : row_unjson a_codec a_row (B "{""Extra"":{""ID"":7},""cachedprops"":[1,""x""]}") = (a_row, true).
Proof. vm_compute. reflexivity. Qed.

(** ** Assumptions *)
Print Assumptions C179_row_partial.
Print Assumptions C179_value_partial.
Print Assumptions C179_fails.
Print Assumptions C179_refuted.
Print Assumptions C179_used_refuted.
Print Assumptions C180_members.
Print Assumptions C180_others.
Print Assumptions C180_not_object.
Print Assumptions C180_unknown.
