(** Theorems on the JSON values of the API (C118 and following). *)
From Coq Require Import Permutation Sorted.
From Verif Require FloatProofs.
From Verif Require Import GoBase GoBaseFacts IdModel TypeModel TypeSpec TypeProofs ParamModel ParamProps JsonModel JsonSpec JsonProofs.
Open Scope Z_scope.

Lemma ascii_text s : Forall (fun c => byte c < 128) s -> utf8_text s.
Proof.
  intros F. exists (map byte s). split; [apply Forall_map; eapply Forall_impl; [|exact F]; intros c H; pose proof (byte_range c); left; cbn in H; lia|].
  induction F as [|c s H _ IH]; [reflexivity|]. cbn [map flat_map]. rewrite <- IH. unfold utf8_enc. destruct (Z.ltb_spec (byte c) 128); [|lia]. rewrite zb_byte. reflexivity.
Qed.
Ltac ascii := apply ascii_text; repeat constructor.

(** ** C118 Metadata survives Value and Scan *)
Lemma meta_scan_over old m : map_ok m -> entries m <> [] -> meta_text m ->
  exists n, metadata_scan old (metadata_value m) = (n, true) /\ n <> None /\ forall k, mget n k = match mget m k with Some v => Some v | None => mget old k end.
Proof.
  intros M N T. apply scan_over; auto; [constructor|]. intros k v E. destruct (T _ _ E) as [A B0]. split; [exact A|]. cbn [json_repaired]. rewrite (repaired_text _ B0). reflexivity.
Qed.
Theorem C118_roundtrip_partial : forall m, map_ok m -> entries m <> [] -> meta_text m ->
  exists n, metadata_scan None (metadata_value m) = (n, true) /\ same_map n m.
Proof.
  intros m M N T. destruct (meta_scan_over None m M N T) as (n & E & _ & G). exists n. split; [exact E|]. intros k. rewrite G. destruct (mget m k); reflexivity.
Qed.
(** The same when the driver hands the column over as []byte. *)
Theorem C118_bytes_or_string : forall old t, metadata_scan old (ABytes t) = metadata_scan old (AStr t) /\ kvset_scan (None) (ABytes t) = kvset_scan None (AStr t).
Proof. intros. split; reflexivity. Qed.
Theorem C118_empty_is_null : forall m, entries m = [] <-> metadata_value m = ANil.
Proof. intros m. unfold metadata_value, map_value. destruct (entries m); cbn; split; congruence. Qed.
(** A value that is not UTF-8 comes back as another one, without an error. *)
Theorem C118_any_text_refuted : forall k v, utf8_text k -> ~ utf8_text v ->
  exists n w, metadata_scan None (metadata_value (Some [(k, v)])) = (n, true) /\ mget n k = Some w /\ w <> v.
Proof.
  intros k v K N. exists (Some [(k, repaired v)]), (repaired v). split; [|split; [unfold mget; cbn [entries assoc]; rewrite beqb_refl; reflexivity|apply repaired_changes, N]].
  unfold metadata_value, map_value. cbn [entries is_empty]. cbn [metadata_scan map_scan]. unfold metadata_scan. cbn [map_scan].
  assert (O : json_ok (map_json JStr (Some [(k, v)]))) by (apply map_json_ok; constructor). rewrite (text_nonempty _ O), (parse_text _ O).
  assert (E : map_json JStr (Some [(k, v)]) = JObj [(k, JStr v)]). { unfold map_json. cbn. unfold mget. cbn [entries assoc]. rewrite beqb_refl. reflexivity. }
  rewrite E. cbn [json_repaired map fst snd]. rewrite (repaired_text _ K). reflexivity.
Qed.
Example C118_ex : let m := Some [(B "b", B "2"); (B "a", B "<x>"); (B "q", [dquote])] in
  map_ok m /\ meta_text m /\ metadata_value m = AStr (B "{""a"":""\u003cx\u003e"",""b"":""2"",""q"":""\""""}") /\ metadata_scan None (metadata_value m) = (Some [(B "a", B "<x>"); (B "b", B "2"); (B "q", [dquote])], true).
Proof.
  cbv zeta. split; [repeat constructor; cbn; intuition discriminate|]. split; [|split; vm_compute; reflexivity].
  intros k v H. apply assoc_in in H. cbn [entries] in H. repeat destruct H as [H|H]; try (injection H as <- <-; split; ascii). destruct H.
Qed.
Example C118_ex_bad : ~ utf8_text [ch 255] /\ metadata_scan None (metadata_value (Some [(B "k", [ch 255])])) = (Some [(B "k", replacement)], true).
Proof. split; [|vm_compute; reflexivity]. intros T. apply repaired_text in T. vm_compute in T. discriminate T. Qed.

(** ** C119 Scan and the value that was in the destination *)
Theorem C119_resets : forall old, metadata_scan old ANil = (None, true) /\ metadata_scan old (AStr []) = (Some [], true) /\ metadata_scan old (ABytes []) = (Some [], true).
Proof. repeat split. Qed.
(** What Scan does: the entries of the column, over those that were there. *)
Theorem C119_merges_partial : forall old m, map_ok m -> entries m <> [] -> meta_text m ->
  exists n, metadata_scan old (metadata_value m) = (n, true) /\ forall k, mget n k = match mget m k with Some v => Some v | None => mget old k end.
Proof. intros old m M N T. destruct (meta_scan_over old m M N T) as (n & E & _ & G). eauto. Qed.
(** A key of the destination that the column does not have is still there. *)
Theorem C119_replaces_refuted : forall old m k v, map_ok m -> entries m <> [] -> meta_text m -> mget old k = Some v -> mget m k = None ->
  exists n, metadata_scan old (metadata_value m) = (n, true) /\ mget n k = Some v /\ ~ same_map n m.
Proof.
  intros old m k v M N T O K. destruct (meta_scan_over old m M N T) as (n & E & _ & G). exists n. split; [exact E|]. rewrite G, K. split; [exact O|]. intros S. specialize (S k). rewrite G, K, O in S. discriminate S.
Qed.
Example C119_ex : metadata_scan (Some [(B "old", B "1")]) (AStr (B "{""new"":""2""}")) = (Some [(B "old", B "1"); (B "new", B "2")], true).
Proof. vm_compute. reflexivity. Qed.

(** ** C120 KVSet *)
Lemma kv_scan_over old m : map_ok m -> entries m <> [] -> kv_text m ->
  exists n, kvset_scan old (kvset_value m) = (n, true) /\ n <> None /\ forall k, mget n k = match mget m k with Some v => Some v | None => mget old k end.
Proof.
  intros M N T. apply scan_over; auto; [apply slice_json_ok| |intros; apply kv_elem_slice]. intros k v E. destruct (T _ _ E) as [A B0]. split; [exact A|]. apply slice_repaired, B0.
Qed.
(** nil and empty lists are told apart. *)
Theorem C120_roundtrip_partial : forall m, map_ok m -> entries m <> [] -> kv_text m ->
  exists n, kvset_scan None (kvset_value m) = (n, true) /\ same_map n m.
Proof.
  intros m M N T. destruct (kv_scan_over None m M N T) as (n & E & _ & G). exists n. split; [exact E|]. intros k. rewrite G. destruct (mget m k); reflexivity.
Qed.
Theorem C120_empty_is_null : forall m, entries m = [] <-> kvset_value m = ANil.
Proof. intros m. unfold kvset_value, map_value. destruct (entries m); cbn; split; congruence. Qed.
Theorem C120_replaces_refuted : forall old m k v, map_ok m -> entries m <> [] -> kv_text m -> mget old k = Some v -> mget m k = None ->
  exists n, kvset_scan old (kvset_value m) = (n, true) /\ mget n k = Some v /\ ~ same_map n m.
Proof.
  intros old m k v M N T O K. destruct (kv_scan_over old m M N T) as (n & E & _ & G). exists n. split; [exact E|]. rewrite G, K. split; [exact O|]. intros S. specialize (S k). rewrite G, K, O in S. discriminate S.
Qed.
Example C120_ex : let m := Some [(B "z", Some [B "1"; B "2"]); (B "n", None); (B "e", Some [])] in
  kvset_value m = AStr (B "{""e"":[],""n"":null,""z"":[""1"",""2""]}") /\ kvset_scan None (kvset_value m) = (Some [(B "e", Some []); (B "n", None); (B "z", Some [B "1"; B "2"])], true).
Proof. split; vm_compute; reflexivity. Qed.

(** ** C121 Strings *)
Theorem C121_roundtrip_partial : forall show l old back, slice_text l -> strings_scan show old back (strings_value l) = (l, true).
Proof.
  intros show l old back T. destruct l as [l|]; [|reflexivity]. cbn [strings_value strings_scan]. assert (Sp : sprint show (AStr (json_text (slice_json (Some l)))) = json_text (slice_json (Some l))) by reflexivity. rewrite Sp.
  pose proof (slice_json_ok (Some l)) as O. rewrite (text_nonempty _ O), (parse_text _ O), (slice_repaired _ T). cbn [slice_json into_slice]. rewrite into_elems_strings. reflexivity.
Qed.
(** Drivers that hand the column over as []byte: every text is an error. *)
Theorem C121_bytes_refuted : forall show b old back, b <> [] -> snd (strings_scan show old back (ABytes b)) = false.
Proof.
  intros show b old back N. cbn [strings_scan]. pose proof (sprint_no_json show b N) as P.
  assert (E : is_empty (sprint show (ABytes b)) = false) by reflexivity. rewrite E. destruct (parse_json (sprint show (ABytes b))) as [[| | | |l|]|]; try (destruct P; fail); [|reflexivity].
  destruct P as [t ->]. reflexivity.
Qed.
(** A null in the list leaves the string that was in the destination. *)
Theorem C121_null_keeps_old_refuted : forall show b bs, strings_scan show (Some (b :: bs)) (b :: bs) (AStr (B "[null]")) = (Some [b], true).
Proof. intros. reflexivity. Qed.
Example C121_ex : let l := Some [B "a,b"; []; B "c\d"] in strings_value l = AStr (B "[""a,b"","""",""c\\d""]") /\ strings_scan (fun _ => []) (Some [B "x"]) [B "x"] (strings_value l) = (l, true)
  /\ strings_scan (fun _ => []) None [] (ABytes (B "[""a""]")) = (None, false).
Proof. repeat split; vm_compute; reflexivity. Qed.

(** ** C122 Scan and values scanned before *)
Lemma upd_at {A} (d y : A) l : forall a, (a < length l)%nat -> nth a (upd l a y) d = y.
Proof. induction l as [|x l IH]; intros a H; [cbn in H; lia|]. destruct a as [|a]; [reflexivity|]. cbn [upd nth]. apply IH. cbn in H. lia. Qed.
(** A second Scan into the same Metadata variable: it keeps its map, and that map,
    which copies of the variable share, now has the second row. *)
Theorem C122_map_refuted : forall h a m, (a < length h)%nat -> map_ok m -> entries m <> [] -> meta_text m ->
  exists h', map_scan_heap meta_elem h (Some a) (json_text (map_json JStr m)) = (h', Some a, true) /\
  forall k v, mget m k = Some v -> assoc k (nth a h' []) = Some v.
Proof.
  intros h a m L M N T. destruct (meta_scan_over (Some (nth a h [])) m M N T) as (n & E & Nn & G). unfold metadata_scan, metadata_value, map_value in E.
  destruct (is_empty (entries m)) eqn:Em; [destruct (entries m); [congruence|discriminate Em]|]. cbn [map_scan] in E. unfold map_scan_heap.
  pose proof (map_json_ok JStr m ltac:(constructor)) as O. rewrite (text_nonempty _ O) in *. destruct (parse_json (json_text (map_json JStr m))) as [j|]; [|discriminate E].
  rewrite E. destruct n as [n|]; [|congruence]. eexists. split; [reflexivity|]. intros k v K. rewrite upd_at by exact L. specialize (G k). rewrite K in G. exact G.
Qed.
(** Into a nil variable: nothing that exists is changed. *)
Theorem C122_map_partial : forall (elem : json -> bytes * bool) h t h' v ok, map_scan_heap elem h None t = (h', v, ok) -> forall a, (a < length h)%nat -> nth a h' [] = nth a h [] /\ v <> Some a.
Proof.
  intros elem h t h' v ok. unfold map_scan_heap. intros E a L. destruct (is_empty t); [injection E as <- <- <-; split; [apply app_nth1, L|intros X; injection X as X; lia]|].
  destruct (parse_json t) as [j|]; [|injection E as <- <- <-; split; [reflexivity|discriminate]].
  destruct (into_map elem None j) as [[n|] k]; injection E as <- <- <-; (split; [try apply app_nth1, L; reflexivity|]); [intros X; injection X as X; lia|discriminate].
Qed.
(** The same for Strings: a list that fits is written over the first one. *)
Theorem C122_strings_refuted : forall h a n l, (a < length h)%nat -> l <> [] -> (length l <= length (nth a h []))%nat -> slice_text (Some l) ->
  exists h', strings_scan_heap h (Some (a, n)) (json_text (slice_json (Some l))) = (h', Some (a, length l), true) /\ firstn (length l) (nth a h' []) = l.
Proof.
  intros h a n l L N Le T. unfold strings_scan_heap. pose proof (slice_json_ok (Some l)) as O. rewrite (text_nonempty _ O), (parse_text _ O), (slice_repaired _ T). cbn [slice_json s_back]. rewrite into_elems_strings.
  assert (E : is_empty (map JStr l) = false) by (destruct l; [congruence|reflexivity]). rewrite E. destruct (Nat.leb_spec (length l) (length (nth a h []))); [|lia].
  eexists. split; [reflexivity|]. rewrite upd_at by exact L. rewrite firstn_app. rewrite firstn_firstn, firstn_length. rewrite Nat.min_l by lia. rewrite firstn_all.
  replace (length l - Nat.min (length (nth a h [])) (length l))%nat with 0%nat by lia. cbn [firstn]. apply app_nil_r.
Qed.
Theorem C122_strings_partial : forall h t h' v ok, strings_scan_heap h None t = (h', v, ok) -> forall a, (a < length h)%nat -> nth a h' [] = nth a h [] /\ forall n, v <> Some (a, n).
Proof.
  intros h t h' v ok. unfold strings_scan_heap. intros E a L.
  assert (A : forall x (y : list bytes), nth a (h ++ [y]) [] = nth a h [] /\ forall n, (Some (length h, x) : svar) <> Some (a, n)) by (intros x y; split; [apply app_nth1, L|intros n X; injection X as X; lia]).
  assert (R : nth a h [] = nth a h [] /\ forall n, (None : svar) <> Some (a, n)) by (split; [reflexivity|discriminate]).
  destruct (is_empty t); [injection E as <- <- <-; apply A|].
  destruct (parse_json t) as [[| | | |l|]|]; try (injection E as <- <- <-; exact R). cbn [s_back] in E. destruct (into_elems [] l) as [xs b]. destruct (is_empty l); injection E as <- <- <-; apply A.
Qed.
Example C122_ex : let '(h1, v1, _) := strings_scan_heap [] None (B "[""a"",""b""]") in let '(h2, v2, _) := strings_scan_heap h1 v1 (B "[""x""]") in
  s_elems h1 v1 = Some [B "a"; B "b"] /\ s_elems h2 v1 = Some [B "x"; B "b"] /\ s_elems h2 v2 = Some [B "x"].
Proof. vm_compute. repeat split. Qed.

(** ** C123 Cursors *)
Theorem C123_roundtrip_partial : forall m, cval_ok (CMap m) -> decode_cursor (encode_cursor m) = Some (Some (map (fun kv => (fst kv, as_floats (snd kv))) m)).
Proof.
  intros m O. unfold decode_cursor, encode_cursor. rewrite (proj1 (C64_cursor_roundtrip _)). rewrite (parse_text _ (cval_json_ok _ O)), (cval_json_repaired _ O).
  pose proof (json_cval_floats _ O) as J. assert (X : exists l, cval_json (CMap m) = JObj l) by (eexists; reflexivity). destruct X as [l X]. rewrite X in *. cbn [json_cval as_floats] in *. injection J as J. rewrite J. reflexivity.
Qed.
Lemma one_entry k n : utf8_text k -> - 2 ^ 63 <= n < 2 ^ 64 -> cval_ok (CMap [(k, CInt n)]).
Proof. intros K N. constructor; [repeat constructor|]. constructor; [|constructor]. split; [exact K|]. constructor. exact N. Qed.
(** The JSON text null is no map and no error; texts of other kinds are errors. *)
Theorem C123_other_texts : decode_cursor (b64_encode (json_text JNull)) = Some None /\
  forall j, json_ok j -> j <> JNull -> (forall l, j <> JObj l) -> decode_cursor (b64_encode (json_text j)) = None.
Proof.
  assert (H : forall j, json_ok j -> decode_cursor (b64_encode (json_text j)) = match json_repaired j with JNull => Some None | JObj l => match json_cval (JObj l) with CMap m => Some (Some m) | _ => None end | _ => None end).
  { intros j O. unfold decode_cursor. rewrite (proj1 (C64_cursor_roundtrip _)), (parse_text _ O). reflexivity. }
  split; [rewrite H by constructor; reflexivity|]. intros j O N1 N2. rewrite (H j O). destruct j; try reflexivity; [contradiction|]. exfalso. eapply N2. reflexivity.
Qed.
Example C123_other_texts_ex : decode_cursor (b64_encode (B "null")) = Some None /\ decode_cursor (b64_encode (B "[1]")) = None /\ decode_cursor (b64_encode (B "{}")) = Some (Some []).
Proof. vm_compute. repeat split. Qed.
Theorem C123_integer_partial : forall k n, utf8_text k -> Z.abs n <= 2 ^ 53 -> decode_cursor (encode_cursor [(k, CInt n)]) = Some (Some [(k, CFloat n)]).
Proof.
  intros k n K N. rewrite C123_roundtrip_partial by (apply one_entry; [exact K|lia]). cbn [map fst snd as_floats]. rewrite f64_small by exact N. reflexivity.
Qed.
(** An odd integer beyond 2^53 -- a row id, say -- comes back as another number. *)
Theorem C123_integer_refuted : forall k n, utf8_text k -> - 2 ^ 63 <= n < 2 ^ 64 -> 2 ^ 53 < Z.abs n -> Z.odd n = true ->
  exists x, decode_cursor (encode_cursor [(k, CInt n)]) = Some (Some [(k, CFloat x)]) /\ x <> n.
Proof.
  intros k n K N L Od. exists (f64 n). split; [apply (C123_roundtrip_partial _ (one_entry k n K N))|]. intros E. pose proof (f64_even n L) as Ev. rewrite E in Ev. rewrite <- Z.negb_odd, Od in Ev. discriminate Ev.
Qed.
Example C123_ex : let m := [(B "after", CInt 9007199254740993); (B "limit", CInt 50); (B "name", CStr (B "O'Neil & co"))] in
  cval_ok (CMap m) /\ decode_cursor (encode_cursor m) = Some (Some [(B "after", CFloat 9007199254740992); (B "limit", CFloat 50); (B "name", CStr (B "O'Neil & co"))]).
Proof.
  cbv zeta. split; [|vm_compute; reflexivity]. constructor.
  - cbn [map fst]. repeat constructor; apply bltb_spec; reflexivity.
  - repeat (constructor; [split; [ascii|constructor; try lia; ascii]|]). constructor.
Qed.

(** ** C124 A failed Scan and the destination *)
(** Text that is not JSON, JSON that is not an object, and Go values that are not
    text: an error, and nothing changes. *)
Theorem C124_unchanged_partial : forall old x n, metadata_scan old x = (n, false) -> (forall t l, (x = AStr t \/ x = ABytes t) -> parse_json t <> Some (JObj l)) -> n = old.
Proof.
  intros old x n E H. unfold metadata_scan in E.
  assert (G : forall t, (x = AStr t \/ x = ABytes t) -> (if is_empty t then (Some [], true) else match parse_json t with None => (old, false) | Some v => into_map meta_elem old v end) = (n, false) -> n = old).
  { intros t X. specialize (H t). destruct (is_empty t); [discriminate|]. destruct (parse_json t) as [[| | | | |l]|]; cbn [into_map]; intros F; try (injection F as <-; reflexivity); [discriminate F|]. destruct (H l X eq_refl). }
  destruct x; cbn [map_scan] in E; try (injection E as <-; reflexivity); try discriminate E; eapply G; try exact E; auto.
Qed.
(** An object with a member of another type: an error, but the other members are
    stored, and the bad one as the empty string. *)
Theorem C124_unchanged_refuted : forall old k v j n, utf8_text k -> utf8_text v -> utf8_text j -> j <> k ->
  exists m, metadata_scan old (AStr (json_text (JObj [(k, JStr v); (j, JNum (fmt_int 10 n))]))) = (m, false) /\ mget m k = Some v /\ mget m j = Some [].
Proof.
  intros old k v j n K V J N. unfold metadata_scan. cbn [map_scan]. set (o := JObj _).
  assert (O : json_ok o) by (subst o; constructor; repeat constructor; apply scan_num_int). rewrite (text_nonempty _ O), (parse_text _ O). subst o. cbn [json_repaired map fst snd]. rewrite !repaired_text by assumption.
  cbn [into_map fold_left forallb fst snd]. eexists. split; [reflexivity|]. unfold mget. cbn [entries meta_elem into_string fst]. split.
  - rewrite assoc_put. destruct (beqb_spec j k); [congruence|]. rewrite assoc_put, beqb_refl. reflexivity.
  - rewrite assoc_put, beqb_refl. reflexivity.
Qed.
(** The same for KVSet and Strings. *)
Theorem C124_strings_refuted : forall old back k n, utf8_text k -> fst (strings_scan (fun _ => []) old back (AStr (json_text (JArr [JStr k; JNum (fmt_int 10 n)])))) = Some [k; nth 1 back []]
  /\ snd (strings_scan (fun _ => []) old back (AStr (json_text (JArr [JStr k; JNum (fmt_int 10 n)])))) = false.
Proof.
  intros old back k n K. cbn [strings_scan]. set (o := JArr _). assert (Sp : sprint (fun _ => []) (AStr (json_text o)) = json_text o) by reflexivity. rewrite Sp.
  assert (O : json_ok o) by (subst o; constructor; repeat constructor; apply scan_num_int). rewrite (text_nonempty _ O), (parse_text _ O). subst o. cbn [json_repaired map]. rewrite (repaired_text _ K). cbn [into_slice into_elems into_string]. split; [|reflexivity].
  destruct back as [|x [|y back]]; reflexivity.
Qed.
Example C124_ex : metadata_scan (Some [(B "a", B "1")]) (AStr (B "{""a"":""2"",""b"":3}")) = (Some [(B "a", B "2"); (B "b", [])], false) /\ metadata_scan (Some [(B "a", B "1")]) (AStr (B "{""a"":")) = (Some [(B "a", B "1")], false)
  /\ metadata_scan (Some [(B "a", B "1")]) (AStr (B "[1]")) = (Some [(B "a", B "1")], false).
Proof. repeat split; vm_compute; reflexivity. Qed.

(** ** C125 One text for one map *)
Theorem C125_same_text : forall a b, map_ok a -> map_ok b -> same_map a b -> metadata_value a = metadata_value b.
Proof. intros a b A B0 S. unfold metadata_value, map_value. rewrite (same_empty a b S), (map_json_same JStr a b A B0 S). reflexivity. Qed.
Theorem C125_same_text_kvset : forall a b, map_ok a -> map_ok b -> same_map a b -> kvset_value a = kvset_value b.
Proof. intros a b A B0 S. unfold kvset_value, map_value. rewrite (same_empty a b S), (map_json_same slice_json a b A B0 S). reflexivity. Qed.
(** And different maps of text have different texts. *)
Theorem C125_different_text : forall a b, map_ok a -> map_ok b -> meta_text a -> meta_text b -> metadata_value a = metadata_value b -> same_map a b.
Proof.
  intros a b A B0 Ta Tb E. destruct (entries a) as [|x l] eqn:Ea.
  - assert (V : metadata_value b = ANil) by (rewrite <- E; apply C118_empty_is_null, Ea). apply C118_empty_is_null in V. intros k. unfold mget. rewrite Ea, V. reflexivity.
  - assert (Na : entries a <> []) by (rewrite Ea; discriminate). assert (Nb : entries b <> []). { intros X. apply C118_empty_is_null in X. rewrite <- E in X. apply C118_empty_is_null in X. congruence. }
    destruct (C118_roundtrip_partial a A Na Ta) as (n & R & Sn). destruct (C118_roundtrip_partial b B0 Nb Tb) as (n' & R' & Sn'). rewrite E in R. rewrite R in R'. injection R' as <-. intros k. rewrite <- Sn. apply Sn'.
Qed.
Example C125_ex : metadata_value (Some [(B "b", B "2"); (B "a", B "1")]) = metadata_value (Some [(B "a", B "1"); (B "b", B "2")]).
Proof. vm_compute. reflexivity. Qed.

(** ** Exact statements of what holds of refuted properties *)
Lemma fold_put_any {V} (f : json -> V) l : forall acc k v, assoc k (fold_left (fun acc kv => put (fst kv) (f (snd kv)) acc) l acc) = Some v ->
  (exists j, In (k, j) l /\ v = f j) \/ assoc k acc = Some v.
Proof.
  induction l as [|[j w] l IH]; intros acc k v H; cbn [fold_left fst snd] in H; [right; exact H|]. apply IH in H as [(x & I & E)|H]; [left; exists x; split; [right; exact I|exact E]|].
  rewrite assoc_put in H. destruct (beqb_spec j k) as [->|N]; [|right; exact H]. left. exists w. split; [left; reflexivity|congruence].
Qed.
(** C118: Metadata comes back as it was exactly when all its keys and values
    are UTF-8. *)
Theorem C118_exact_partial : forall m, map_ok m -> entries m <> [] ->
  ((exists n, metadata_scan None (metadata_value m) = (n, true) /\ same_map n m) <-> meta_text m).
Proof.
  intros m M N. split; [|apply C118_roundtrip_partial; assumption]. intros (n & E & S) k v K. rewrite <- S in K. unfold metadata_value, map_value in E. destruct (is_empty (entries m)) eqn:Em; [destruct (entries m); [congruence|discriminate Em]|].
  unfold metadata_scan in E. cbn [map_scan] in E. pose proof (map_json_ok JStr m ltac:(constructor)) as O. rewrite (text_nonempty _ O), (parse_text _ O) in E. unfold map_json in E. cbn [json_repaired into_map] in E. injection E as E _. subst n.
  unfold mget in K. cbn [entries] in K. apply (fold_put_any (fun x => fst (meta_elem x))) in K as [(j & I & ->)|K]; [|discriminate K]. apply in_map_iff in I as ([k' v'] & X & I). injection X as <- <-. apply (members_in JStr m) in I as (x & _ & ->). cbn [json_repaired meta_elem into_string fst snd]. split; apply repaired_is_text.
Qed.
(** C120: the same for KVSet. *)
Theorem C120_exact_partial : forall m, map_ok m -> entries m <> [] ->
  ((exists n, kvset_scan None (kvset_value m) = (n, true) /\ same_map n m) <-> kv_text m).
Proof.
  intros m M N. split; [|apply C120_roundtrip_partial; assumption]. intros (n & E & S) k v K. rewrite <- S in K. unfold kvset_value, map_value in E. destruct (is_empty (entries m)) eqn:Em; [destruct (entries m); [congruence|discriminate Em]|].
  unfold kvset_scan in E. cbn [map_scan] in E. pose proof (map_json_ok slice_json m slice_json_ok) as O. rewrite (text_nonempty _ O), (parse_text _ O) in E. unfold map_json in E. cbn [json_repaired into_map] in E. injection E as E _. subst n.
  unfold mget in K. cbn [entries] in K. apply (fold_put_any (fun x => fst (kv_elem x))) in K as [(j & I & ->)|K]; [|discriminate K]. apply in_map_iff in I as ([k' v'] & X & I). injection X as <- <-. apply (members_in slice_json m) in I as (x & _ & ->). split; [apply repaired_is_text|].
  destruct x as [x|]; cbn [slice_json json_repaired]; [|intros xs y Y; discriminate Y]. rewrite map_map. cbn [json_repaired]. rewrite <- (map_map repaired JStr). unfold kv_elem. cbn [into_slice]. rewrite into_elems_strings. cbn [fst].
  intros xs y Y I2. injection Y as <-. apply in_map_iff in I2 as (z & <- & _). apply repaired_is_text.
Qed.
(** C121: the same for Strings. *)
Theorem C121_exact_partial : forall show l old back, strings_scan show old back (strings_value l) = (l, true) <-> slice_text l.
Proof.
  intros show l old back. split; [|apply C121_roundtrip_partial]. intros E. destruct l as [l|]; [|intros xs x Y; discriminate Y]. cbn [strings_value strings_scan] in E.
  assert (Sp : sprint show (AStr (json_text (slice_json (Some l)))) = json_text (slice_json (Some l))) by reflexivity. rewrite Sp in E.
  pose proof (slice_json_ok (Some l)) as O. rewrite (text_nonempty _ O), (parse_text _ O) in E. cbn [slice_json json_repaired] in E. rewrite map_map in E. cbn [json_repaired] in E. rewrite <- (map_map repaired JStr) in E. cbn [into_slice] in E. rewrite into_elems_strings in E. injection E as E.
  intros xs x Y I. injection Y as <-. rewrite <- E in I. apply in_map_iff in I as (z & <- & _). apply repaired_is_text.
Qed.
(** C123: an integer in a cursor comes back as that number exactly when it is a
    multiple of a power of two by at most 2^53. *)
Lemma f64_exact n : f64 n = n <-> exists m e, 0 <= e /\ Z.abs m <= 2 ^ 53 /\ n = m * 2 ^ e.
Proof.
  destruct (Z_le_gt_dec (Z.abs n) (2 ^ 53)) as [L|L].
  - split; [intros _; exists n, 0; split; [lia|]; split; [exact L|lia]|intros _; apply f64_small, L].
  - unfold f64. cbv zeta. destruct (Z.ltb_spec (Z.abs n) (2 ^ 53)) as [C|_]; [lia|]. pose proof (Z.log2_spec (Z.abs n) ltac:(lia)) as [L1 L2]. assert (K : 53 <= Z.log2 (Z.abs n)) by (apply Z.log2_le_pow2; lia). set (l := Z.log2 (Z.abs n)) in *. clearbody l.
    assert (P : 0 < 2 ^ (l - 52)) by (apply Z.pow_pos_nonneg; lia). replace (Z.succ l) with (53 + (l - 52)) in L2 by lia. rewrite Z.pow_add_r in L2 by lia. split.
    + intros E. set (r := round_even (Z.abs n) (2 ^ (l - 52))) in *. exists (Z.sgn n * r), (l - 52). split; [lia|]. split; [|rewrite <- Z.mul_assoc; symmetry; exact E].
      assert (A : Z.abs n = Z.abs r * 2 ^ (l - 52)). { rewrite <- E at 1. rewrite !Z.abs_mul. rewrite (Z.abs_eq (2 ^ (l - 52))) by lia. assert (Z.abs (Z.sgn n) = 1) as -> by (pose proof (Z.sgn_spec n); lia). ring. }
      rewrite Z.abs_mul. assert (Z.abs (Z.sgn n) = 1) as -> by (pose proof (Z.sgn_spec n); lia). nia.
    + intros (m & e & He & Hm & E). assert (D : exists q, Z.abs n = q * 2 ^ (l - 52)).
      { destruct (Z_le_gt_dec (l - 52) e) as [G|G].
        - exists (Z.abs m * 2 ^ (e - (l - 52))). rewrite E, Z.abs_mul, (Z.abs_eq (2 ^ e)) by (apply Z.pow_nonneg; lia). rewrite <- Z.mul_assoc, <- Z.pow_add_r by lia. do 2 f_equal. lia.
        - assert (X : Z.abs n = Z.abs m * 2 ^ e) by (rewrite E, Z.abs_mul, (Z.abs_eq (2 ^ e)) by (apply Z.pow_nonneg; lia); reflexivity).
          exists (2 ^ 52). rewrite <- Z.pow_add_r by lia. replace (52 + (l - 52)) with l by lia. apply Z.le_antisymm; [|exact L1]. rewrite X. replace l with ((l - e) + e) by lia. rewrite Z.pow_add_r by lia. apply Z.mul_le_mono_nonneg_r; [apply Z.pow_nonneg; lia|].
          transitivity (2 ^ 53); [exact Hm|]. apply Z.pow_le_mono_r; lia. }
      destruct D as [q D]. rewrite D, FloatProofs.re_exact by exact P. rewrite <- D. rewrite Z.mul_comm. apply Z.abs_sgn.
Qed.
Theorem C123_exact_partial : forall k n, utf8_text k -> - 2 ^ 63 <= n < 2 ^ 64 ->
  (decode_cursor (encode_cursor [(k, CInt n)]) = Some (Some [(k, CFloat n)]) <-> exists m e, 0 <= e /\ Z.abs m <= 2 ^ 53 /\ n = m * 2 ^ e).
Proof.
  intros k n K N. rewrite (C123_roundtrip_partial _ (one_entry k n K N)). cbn [map fst snd as_floats]. rewrite <- f64_exact. split; [intros E; injection E as E; exact E|intros ->; reflexivity].
Qed.
Example C123_exact_ex : 2 ^ 63 = 1 * 2 ^ 63 /\ decode_cursor (encode_cursor [(B "k", CInt (2 ^ 63))]) = Some (Some [(B "k", CFloat (2 ^ 63))]). Proof. split; vm_compute; reflexivity. Qed.

(** C124: for a text that is a JSON object every named member is stored (the last
    one of a name; one of another type as the zero value) and all other keys stay,
    whether or not Scan fails; it fails exactly when some member has another type.
    So the destination is unchanged by a failing Scan exactly when it already had
    those values. *)
Fixpoint last_member (k : bytes) (l : list (bytes * json)) : option json :=
  match l with [] => None | (j, v) :: r => match last_member k r with Some x => Some x | None => if beqb k j then Some v else None end end.
Lemma fold_put_last {V} (f : json -> V) l : forall acc k, assoc k (fold_left (fun acc kv => put (fst kv) (f (snd kv)) acc) l acc) =
  match last_member k l with Some j => Some (f j) | None => assoc k acc end.
Proof.
  induction l as [|[j w] l IH]; intros acc k; [reflexivity|]. cbn [fold_left fst snd last_member]. rewrite IH. destruct (last_member k l); [reflexivity|].
  rewrite assoc_put. destruct (beqb_spec j k) as [->|N]; [rewrite beqb_refl; reflexivity|]. destruct (beqb_spec k j) as [E|_]; [congruence|reflexivity].
Qed.
Lemma json_text_nonempty t v : parse_json t = Some v -> is_empty t = false.
Proof. destruct t; [discriminate|reflexivity]. Qed.
Theorem C124_exact_partial : forall old t l, parse_json t = Some (JObj l) -> forall x, x = AStr t \/ x = ABytes t ->
  (forall k, mget (fst (metadata_scan old x)) k = match last_member k l with Some (JStr s) => Some s | Some _ => Some [] | None => mget old k end) /\
  (snd (metadata_scan old x) = true <-> forall k v, In (k, v) l -> v = JNull \/ exists s, v = JStr s).
Proof.
  intros old t l P x X. assert (E : metadata_scan old x = into_map meta_elem old (JObj l)).
  { unfold metadata_scan. destruct X as [-> | ->]; cbn [map_scan]; rewrite (json_text_nonempty _ _ P), P; reflexivity. }
  rewrite E. cbn [into_map fst snd]. split.
  - intros k. unfold mget at 1. cbn [entries]. rewrite (fold_put_last (fun j => fst (meta_elem j))). destruct (last_member k l) as [[]|]; reflexivity.
  - rewrite forallb_forall. split.
    + intros H k v I. specialize (H (k, v) I). destruct v; try discriminate H; eauto.
    + intros H [k v] I. destruct (H k v I) as [-> |(s & ->)]; reflexivity.
Qed.
Example C124_exact_partial_ex : exists l, parse_json (B "{""a"":""2"",""b"":3,""a"":null}") = Some (JObj l) /\
  metadata_scan (Some [(B "a", B "1"); (B "c", B "9")]) (ABytes (B "{""a"":""2"",""b"":3,""a"":null}")) = (Some [(B "a", []); (B "c", B "9"); (B "b", [])], false).
Proof. eexists. split; vm_compute; reflexivity. Qed.

(** ** Assumptions *)
Print Assumptions C118_roundtrip_partial.
Print Assumptions C118_bytes_or_string.
Print Assumptions C118_empty_is_null.
Print Assumptions C118_any_text_refuted.
Print Assumptions C119_resets.
Print Assumptions C119_merges_partial.
Print Assumptions C119_replaces_refuted.
Print Assumptions C120_roundtrip_partial.
Print Assumptions C120_empty_is_null.
Print Assumptions C120_replaces_refuted.
Print Assumptions C121_roundtrip_partial.
Print Assumptions C121_bytes_refuted.
Print Assumptions C121_null_keeps_old_refuted.
Print Assumptions C122_map_refuted.
Print Assumptions C122_map_partial.
Print Assumptions C122_strings_refuted.
Print Assumptions C122_strings_partial.
Print Assumptions C123_roundtrip_partial.
Print Assumptions C123_other_texts.
Print Assumptions C123_integer_partial.
Print Assumptions C123_integer_refuted.
Print Assumptions C124_unchanged_partial.
Print Assumptions C124_unchanged_refuted.
Print Assumptions C124_strings_refuted.
Print Assumptions C125_same_text.
Print Assumptions C125_same_text_kvset.
Print Assumptions C125_different_text.
Print Assumptions C118_exact_partial.
Print Assumptions C120_exact_partial.
Print Assumptions C121_exact_partial.
Print Assumptions C123_exact_partial.
Print Assumptions C124_exact_partial.
