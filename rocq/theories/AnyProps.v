(** Theorems on values of type any: the payloads of notifications and cursors with
    all their numbers. *)
From Coq Require Import Sorted.
From Verif Require Import GoBase GoBaseFacts IdModel IdSpec IdProofs FloatModel FloatSpec FloatProofs TypeModel TypeSpec TypeProofs ParamModel ParamSpec QueryProofs ParamProps ProvModel JsonModel JsonSpec JsonProofs AnyModel AnySpec AnyProofs.
Open Scope Z_scope.

(** ** C175 The payload of a notification is the JSON object of its text *)
Lemma any_text_shape fmt m : m <> [] -> any_text fmt m <> B "{}" /\ any_text fmt m <> B "[]" /\ any_text fmt m <> [].
Proof.
  intros N. destruct m as [|[k v] m]; [congruence|]. unfold any_text. cbn [any_json json_text map fst snd].
  set (x := map _ _). unfold join. unfold enc_string at 1. destruct x; cbn [app B list_ascii_of_string]; repeat split; discriminate.
Qed.
Lemma deliver_text ch t : t <> B "{}" -> t <> B "[]" -> t <> [] -> gn_payload (deliver (mkN ch t)) = fst (unmarshal_map t).
Proof.
  intros H1 H2 H3. unfold deliver, parse_payload. cbn [gn_payload n_extra]. destruct t as [|c t]; [congruence|]. cbn [is_empty orb].
  destruct (beqb_spec (c :: t) (B "{}")); [congruence|]. destruct (beqb_spec (c :: t) (B "[]")); [congruence|]. reflexivity.
Qed.
(** What one program writes with json.Marshal arrives at the listener. *)
Theorem C175_sent : forall fmt m ch, float_format fmt -> sendable (VMap m) -> m <> [] ->
  exists m', gn_payload (deliver (mkN ch (any_text fmt m))) = Some m' /\ arrives (VMap m) (VMap m').
Proof.
  intros fmt m ch Hf Hs N. destruct (any_text_shape fmt m N) as (T1 & T2 & T3). rewrite (deliver_text ch _ T1 T2 T3).
  destruct (unmarshal_sent fmt m Hf Hs) as (m' & E & A). exists m'. rewrite E. split; [reflexivity|exact A].
Qed.
Example C175_sent_exact : float_format exact_text.
Proof. exact exact_format. Qed.
Definition C175_map : list (bytes * aval) :=
  [(B "id", VInt (2 ^ 60 + 1)); (B "list", VArr [VNil; VBool true; VStr (B "x<y")]); (B "sub", VMap [(B "half", VNum (1022 * 2 ^ 52))])].
Lemma ascii_is_text s : Forall (fun c => byte c < 128) s -> utf8_text s.
Proof.
  intros H. exists (map byte s). split.
  - apply Forall_map. eapply Forall_impl; [|exact H]. intros c Hc. pose proof (byte_range c). left. cbn in Hc. lia.
  - induction H as [|c s Hc Hs IH]; [reflexivity|]. cbn [map flat_map]. rewrite <- IH. unfold utf8_enc. destruct (Z.ltb_spec (byte c) 128); [|lia]. cbn [app]. f_equal. symmetry. apply zb_byte.
Qed.
Example C175_map_ok : sendable (VMap C175_map).
Proof.
  assert (T : forall s, forallb (fun c => byte c <? 128) s = true -> utf8_text s).
  { intros s H. apply ascii_is_text. apply Forall_forall. intros c I. rewrite forallb_forall in H. apply Z.ltb_lt. auto. }
  assert (L : forall a b, bltb a b = true -> str_lt a b) by (intros a b; apply bltb_spec).
  constructor; [repeat (constructor; try (apply L; reflexivity))|].
  repeat apply Forall_cons; try apply Forall_nil; (split; [apply T; reflexivity|]).
  - constructor. split; [discriminate|reflexivity].
  - constructor. repeat (apply Forall_cons; [constructor; try (apply T; reflexivity)|]). apply Forall_nil.
  - constructor; [repeat constructor|]. repeat constructor; try (apply T; reflexivity); vm_compute; discriminate || reflexivity.
Qed.
Example C175_map_sent : gn_payload (deliver (mkN (B "orders") (B "{""id"":1152921504606846977,""list"":[null,true,""x\u003cy""],""sub"":{""half"":0.5}}"))) =
  Some [(B "id", VNum (1083 * 2 ^ 52)); (B "list", VArr [VNil; VBool true; VStr (B "x<y")]); (B "sub", VMap [(B "half", VNum (1022 * 2 ^ 52))])].
Proof. vm_compute. reflexivity. Qed.
(** Whatever JSON object the text is: its names, the last member of a name, the
    nearest float64 of a number. *)
Theorem C175_object : forall ch t l, parse_json t = Some (JObj l) -> small_exponents (JObj l) -> t <> B "{}" ->
  exists m, gn_payload (deliver (mkN ch t)) = Some m /\ denotes (JObj l) (VMap m).
Proof.
  intros ch t l P S0 N. assert (T2 : t <> B "[]") by (intros ->; discriminate P). assert (T3 : t <> []) by (intros ->; discriminate P).
  rewrite (deliver_text ch t N T2 T3). unfold unmarshal_map. rewrite P. cbn [fst]. eexists. split; [reflexivity|].
  apply (any_of_denotes (JObj l) (parse_numbers _ _ P) S0).
Qed.
Example C175_object_case : parse_json (B " {""a"" : 1, ""a"":2e0 } ") = Some (JObj [(B "a", JNum (B "1")); (B "a", JNum (B "2e0"))]) /\
  gn_payload (deliver (mkN (B "orders") (B " {""a"" : 1, ""a"":2e0 } "))) = Some [(B "a", VNum (2 ^ 62))].
Proof. split; vm_compute; reflexivity. Qed.
(** A text that is no JSON object gives no payload, and neither does an empty text. *)
Theorem C175_other : forall ch t, (forall l, parse_json t <> Some (JObj l)) -> gn_payload (deliver (mkN ch t)) = None.
Proof.
  intros ch t H. unfold deliver, parse_payload. cbn [gn_payload n_extra]. destruct (is_empty t || beqb t (B "{}") || beqb t (B "[]")); [reflexivity|].
  unfold unmarshal_map. destruct (parse_json t) as [[| | | | |l]|] eqn:P; try reflexivity. destruct (H l eq_refl).
Qed.
Example C175_other_case : map (fun t => gn_payload (deliver (mkN (B "orders") t))) [[]; B "{}"; B "[1]"; B "null"; B "{""a"":1"; B "hello"] = [None; None; None; None; None; None].
Proof. reflexivity. Qed.
(** The channel and the text itself are always there. *)
Theorem C175_raw : forall ch t, gn_channel (deliver (mkN ch t)) = ch /\ gn_raw (deliver (mkN ch t)) = t.
Proof. intros. split; reflexivity. Qed.

(** ** C176 A payload that cannot be decoded is not handed out *)
Definition C176_text : bytes := B "{""a"":1e400,""b"":1}".
Theorem C176_overflow_refuted : exists t l, parse_json t = Some (JObj l) /\ overflows (JObj l) /\ snd (unmarshal_map t) = false /\
  forall ch, gn_payload (deliver (mkN ch t)) = Some [(B "a", VNil); (B "b", VNum (1023 * 2 ^ 52))].
Proof.
  exists C176_text, [(B "a", JNum (B "1e400")); (B "b", JNum (B "1"))]. split; [reflexivity|]. split; [|split; [vm_compute; reflexivity|intros ch; vm_compute; reflexivity]].
  apply (ov_obj _ (B "a") (JNum (B "1e400"))); [left; reflexivity|]. apply (ov_num _ false (B "1") [] 400).
  - exists [], [], (B "e400"). split; [reflexivity|]. split; [constructor|]. split; [repeat constructor; vm_compute; lia|]. split; [constructor|]. split; [discriminate|].
    apply (et_exp (ascii_of_nat 101) [] false (B "400")); [left; reflexivity|constructor|split; [discriminate|repeat constructor; vm_compute; lia]].
  - vm_compute. discriminate.
Qed.
(** Numbers out of range are the only such case. *)
Theorem C176_exact_partial : forall ch t m, gn_payload (deliver (mkN ch t)) = Some m -> (forall l, parse_json t = Some (JObj l) -> small_exponents (JObj l)) ->
  exists l, parse_json t = Some (JObj l) /\ (snd (unmarshal_map t) = false <-> overflows (JObj l)).
Proof.
  intros ch t m E S0. assert (X : fst (unmarshal_map t) = Some m).
  { unfold deliver, parse_payload in E. cbn [gn_payload n_extra] in E. destruct (is_empty t || beqb t (B "{}") || beqb t (B "[]")); [discriminate E|exact E]. }
  unfold unmarshal_map in *. destruct (parse_json t) as [[| | | | |l]|] eqn:P; try discriminate X. exists l. split; [reflexivity|].
  apply (any_fits_range (JObj l) (parse_numbers _ _ P) (S0 l eq_refl)).
Qed.
Example C176_fits : gn_payload (deliver (mkN (B "orders") (B "{""a"":1e300}"))) <> None /\ snd (unmarshal_map (B "{""a"":1e300}")) = true.
Proof. split; vm_compute; [discriminate|reflexivity]. Qed.

(** ** C123 cursors with all their numbers *)
Theorem C123_values_partial : forall fmt m, float_format fmt -> sendable (VMap m) ->
  exists m', decode_any (encode_any fmt m) = Some (Some m') /\ arrives (VMap m) (VMap m').
Proof.
  intros fmt m Hf Hs. destruct (unmarshal_sent fmt m Hf Hs) as (m' & E & A). exists m'. split; [|exact A].
  unfold decode_any, encode_any. rewrite (proj1 (C64_cursor_roundtrip _)). rewrite E. reflexivity.
Qed.
Theorem C123_range_partial : forall t l, parse_json t = Some (JObj l) -> small_exponents (JObj l) ->
  (decode_any (b64_encode t) = None <-> overflows (JObj l)).
Proof.
  intros t l P S0. unfold decode_any. rewrite (proj1 (C64_cursor_roundtrip _)). pose proof (any_fits_range (JObj l) (parse_numbers _ _ P) S0) as R. unfold unmarshal_map. rewrite P.
  destruct (any_fits (JObj l)); split.
  - discriminate.
  - intros O. apply R in O. discriminate O.
  - intros _. apply R. reflexivity.
  - reflexivity.
Qed.
Example C123_range_case : decode_any (b64_encode C176_text) = None /\ decode_any (encode_any exact_text [(B "x", VInt 3)]) = Some (Some [(B "x", VNum (2 ^ 62 + 2 ^ 51))]).
Proof. split; vm_compute; reflexivity. Qed.

(** ** Assumptions *)
Print Assumptions C175_sent.
Print Assumptions C175_object.
Print Assumptions C175_other.
Print Assumptions C175_raw.
Print Assumptions C176_overflow_refuted.
Print Assumptions C176_exact_partial.
Print Assumptions C123_values_partial.
Print Assumptions C123_range_partial.
