(** Property theorems C143-C145, C148-C150: options of transactions, page
    parameters, arrays of enums, pointers to strings, iterating Metadata, time zones. *)
From Verif Require Import GoBase GoBaseFacts IdModel IdSpec TypeModel TypeSpec TypeProofs ParamModel TimeModel TimeSpec TimeZone MiscModel.
From Verif Require JsonModel JsonSpec JsonProofs QuoteProofs TimeProofs.
From Coq Require Import Permutation Sorted.
Open Scope Z_scope.

(** ** C143: BeginTx uses the TxOptions it is given *)
(** Refuted for every option other than the default: the driver is asked for a
    default transaction, and an unsupported level is not reported. *)
Theorem C143_options_refuted : forall o supported, o <> default_opts -> supported default_opts = true ->
  begin_tx supported false (Some o) = ([default_opts], true) /\ (supported o = false -> begin_tx supported false (Some o) <> sql_begin supported (Some o)).
Proof.
  intros o supported N D. unfold begin_tx, sql_begin. rewrite D. split; [reflexivity|]. intros E. rewrite E. congruence.
Qed.
(** Nil and default options are honoured. *)
Theorem C143_default_partial : forall o supported, o = None \/ o = Some default_opts -> begin_tx supported false o = sql_begin supported o.
Proof. intros o supported [->| ->]; reflexivity. Qed.
Example C143_ex : begin_tx (fun o => tx_iso o <? 4) false (Some (mkOpts 6 true)) = ([default_opts], true). Proof. reflexivity. Qed.

(** ** C144: PageParam is the value of the parameter *)
(** The parameter as the caller means it: an int or a uint32, possibly named. *)
Fixpoint means (v : goany) (n : Z) : Prop :=
  match v with AInt z | AUint32 z => z = n | ANamed _ v => means v n | _ => False end.
Theorem C144_value_refuted : ~ (forall v n, means v n -> page_param v = Some n).
Proof. intros H. specialize (H (AInt (-1)) (-1) eq_refl). discriminate H. Qed.
(** Up to a multiple of 2^32; exactly for parameters that fit. *)
Theorem C144_value_partial : forall v n, means v n -> (0 <= n < 2 ^ 32 -> page_param v = Some n) /\
  (match v with AUint32 _ => 0 <= n < 2 ^ 32 | _ => True end -> forall name, page_param (ANamed name v) = page_param v).
Proof.
  intros v n M. split; [|reflexivity]. intros Hn. revert M. induction v; cbn [means page_param]; intros M; try contradiction; subst; try reflexivity; [unfold u32; rewrite wrap_u_id by exact Hn; reflexivity|].
  match goal with IH : _ -> _ = Some n |- _ => apply IH; exact M end.
Qed.
Theorem C144_int_partial : forall z, exists p k, page_param (AInt z) = Some p /\ 0 <= p < 2 ^ 32 /\ z = p + k * 2 ^ 32.
Proof.
  intros z. exists (z mod 2 ^ 32), (z / 2 ^ 32). split; [reflexivity|]. split; [apply Z.mod_pos_bound; lia|]. rewrite (Z.div_mod z (2 ^ 32)) at 1 by lia. ring.
Qed.
(** Anything else panics. *)
Theorem C144_panics_partial : forall v, page_param v = None <-> forall n, ~ means v n.
Proof.
  induction v; cbn [page_param means]; try (split; [intros _ ? []|intros _; reflexivity]); try (split; [discriminate|intros H; exfalso; apply (H _ eq_refl)]).
  assumption.
Qed.
Example C144_ex : means (ANamed (B "limit") (AUint32 25)) 25 /\ page_param (ANamed (B "limit") (AUint32 25)) = Some 25 /\ page_param (AInt (-1)) = Some 4294967295 /\ page_param (AInt64 5) = None.
Proof. repeat split. Qed.

(** ** C58: GetQueryParams *)
(** The parameters are those of the first argument that has any, whatever the
    others are; without one the call panics. *)
Theorem C58_first_builder : forall args b, get_query_params args = Some b <-> exists pre post, args = pre ++ QP b :: post /\ forall x, ~ In (QP x) pre.
Proof.
  induction args as [|[x|v] args IH]; intros b; cbn [get_query_params].
  - split; [discriminate|]. intros ([|? ?] & post & E & _); discriminate.
  - split.
    + intros E; injection E as ->. exists [], args. split; [reflexivity|intros y []].
    + intros ([|y pre] & post & E & N); [injection E as -> _; reflexivity|]. injection E as E _. exfalso. apply (N x). left. symmetry. exact E.
  - rewrite IH. split; intros (pre & post & E & N).
    + exists (QV v :: pre), post. split; [rewrite E; reflexivity|]. intros y [Y|Y]; [discriminate|exact (N y Y)].
    + destruct pre as [|y pre]; [discriminate|]. injection E as _ ->. exists pre, post. split; [reflexivity|]. intros y0 Y. apply (N y0). right. exact Y.
Qed.
Theorem C58_no_builder : forall args, get_query_params args = None <-> forall b, ~ In (QP b) args.
Proof.
  induction args as [|[x|v] args IH]; cbn [get_query_params]; [split; [intros _ b []|reflexivity]| |].
  - split; [discriminate|]. intros H. exfalso. apply (H x). left. reflexivity.
  - rewrite IH. split; intros H b; [intros [Y|Y]; [discriminate|exact (H b Y)]|intros Y; apply (H b); right; exact Y].
Qed.
Example C58_get_ex : get_query_params [QV (AInt 1); QP (new_params (B "a")); QP (new_params (B "b"))] = Some (new_params (B "a")). Proof. reflexivity. Qed.

(** ** C145: Int32Array keeps the enums *)
Theorem C145_values_refuted : ~ (forall l, Forall (fun e => 0 <= e < 2 ^ 32) l -> int32_array l = l).
Proof. intros H. specialize (H [2 ^ 31]). assert (Forall (fun e => 0 <= e < 2 ^ 32) [2 ^ 31]) as F by (constructor; [lia|constructor]). specialize (H F). discriminate H. Qed.
Theorem C145_values_partial : forall l, Forall (fun e => - 2 ^ 31 <= e < 2 ^ 31) l -> int32_array l = l.
Proof. unfold int32_array, i32. induction 1 as [|e l H _ IH]; [reflexivity|]. cbn [map]. rewrite IH, wrap_s_id by (cbn; lia). reflexivity. Qed.
(** No two lists of uint32 enums (or of int32 enums) are sent as the same array, and
    every element is an int32. *)
Theorem C145_injective : forall a b, (Forall (fun e => 0 <= e < 2 ^ 32) a /\ Forall (fun e => 0 <= e < 2 ^ 32) b) \/ (Forall int32 a /\ Forall int32 b) ->
  Forall int32 (int32_array a) /\ (int32_array a = int32_array b -> a = b).
Proof.
  intros a b H. split; [apply Forall_forall; intros x I; apply in_map_iff in I as (y & <- & _); apply (wrap_s_range 32 y); lia|].
  destruct H as [[Ha Hb]|[Ha Hb]].
  - intros E. apply (f_equal (map (fun x => x mod 2 ^ 32))) in E. unfold int32_array in E. rewrite !map_map in E.
    assert (W : forall l, Forall (fun e => 0 <= e < 2 ^ 32) l -> map (fun x => i32 x mod 2 ^ 32) l = l).
    { induction 1 as [|e l He _ IH]; [reflexivity|]. cbn [map]. rewrite IH. f_equal. pose proof (wrap_u_s 32 e ltac:(lia)) as U. unfold wrap_u in U. unfold i32. rewrite U. apply Z.mod_small. exact He. }
    rewrite (W a Ha), (W b Hb) in E. exact E.
  - rewrite (C145_values_partial a), (C145_values_partial b); auto.
Qed.
Example C145_ex : int32_array [1; 4294967295; 2147483647] = [1; -1; 2147483647]. Proof. reflexivity. Qed.

(** ** C148: String and QuotedString of a pointer *)
Theorem C148_string : forall p, (forall s, p = Some s -> string_ptr p = s) /\ (p = None -> string_ptr p = [] /\ quoted_ptr p = []).
Proof. intros p. split; [intros s ->; reflexivity|intros ->; split; reflexivity]. Qed.
(** Quoted texts are told apart, and apart from no text. *)
Theorem C148_quoted_injective : forall a b, quoted_ptr a = quoted_ptr b -> a = b.
Proof.
  intros [a|] [b|] E; cbn [quoted_ptr] in E; try discriminate; [|reflexivity]. injection E as E. apply app_inj_tail in E as [-> _]. reflexivity.
Qed.
(** Refuted: the quoted text is not the JSON string of the text. *)
Theorem C148_json_refuted : exists s, JsonModel.parse_json (quoted_ptr (Some s)) <> Some (JsonModel.JStr s).
Proof. exists (B "a\b"). vm_compute. discriminate. Qed.
Definition plain (c : ascii) : Prop := 32 <= byte c < 128 /\ byte c <> 34 /\ byte c <> 92.
Theorem C148_json_partial : forall s, Forall plain s -> JsonModel.parse_json (quoted_ptr (Some s)) = Some (JsonModel.JStr s).
Proof.
  intros s P. unfold JsonModel.parse_json. cbn [quoted_ptr app]. generalize (2 * length (dquote :: s ++ [dquote]))%nat as n. intros n. rewrite Nat.add_comm. cbn [Nat.add].
  assert (U : forall rest f, (length s < f)%nat -> JsonModel.unquote f (s ++ dquote :: rest) = Some (s, rest)).
  { induction P as [|c s (R & N1 & N2) _ IH]; intros rest f L; (destruct f as [|f]; [cbn in L; lia|]); [reflexivity|]. cbn [app JsonModel.unquote].
    destruct (Z.eqb_spec (byte c) 34); [contradiction|]. destruct (Z.eqb_spec (byte c) 92); [contradiction|]. destruct (Z.ltb_spec (byte c) 32); [lia|].
    unfold JsonModel.utf8_size. cbv zeta. destruct (Z.ltb_spec (byte c) 128); [|lia]. cbn [firstn skipn]. rewrite IH by (cbn [length] in L; lia). reflexivity. }
  cbn [JsonModel.jval]. change (JsonModel.skip_ws (dquote :: s ++ [dquote])) with (dquote :: s ++ [dquote]). cbv iota. change (byte dquote =? 34) with true. cbv iota.
  rewrite (U [] _) by (rewrite app_length; lia). reflexivity.
Qed.
Example C148_ex : Forall plain (B "a b") /\ quoted_ptr (Some (B "a b")) = [dquote] ++ B "a b" ++ [dquote].
Proof. split; [|reflexivity]. cbn [B list_ascii_of_string]. unfold plain. repeat (apply Forall_cons; [vm_compute; repeat split; discriminate|]). apply Forall_nil. Qed.

(** ** C149: keys and ranges of Metadata *)
(** [order] is a way Go may iterate over [m]. *)
Definition iterates {V} (order m : gmap V) : Prop := (order = None <-> m = None) /\ Permutation (entries order) (entries m).
Theorem C149_keys : forall V (m order : gmap V), map_ok m -> iterates order m ->
  match meta_keys order with None => m = None | Some ks => NoDup ks /\ forall k, In k ks <-> mget m k <> None end.
Proof.
  intros V m order Hm [Hn Hp]. unfold meta_keys. destruct order as [l|]; [|apply Hn; reflexivity]. cbn [entries] in Hp. split.
  - eapply Permutation_NoDup; [apply Permutation_map, Permutation_sym, Hp|exact Hm].
  - intros k. unfold mget. assert (X : In k (map fst l) <-> In k (map fst (entries m))).
    { split; apply Permutation_in; [apply Permutation_map, Hp|apply Permutation_map, Permutation_sym, Hp]. }
    rewrite X. destruct (assoc k (entries m)) as [v|] eqn:E.
    + split; [discriminate|]. intros _. apply assoc_in in E. apply (in_map fst) in E. exact E.
    + split; [|congruence]. intros I. apply assoc_none in E. contradiction.
Qed.
Theorem C149_ordered_keys : forall V (m : gmap V), map_ok m -> StronglySorted str_lt (ordered_keys m) /\ forall k, In k (ordered_keys m) <-> mget m k <> None.
Proof.
  intros V m Hm. split; [apply ordered_keys_sorted, Hm|]. intros k. rewrite mget_keys. destruct (mget m k) as [v|]; split; try congruence; [intros _; exists v; reflexivity|intros [v E]; discriminate].
Qed.
(** The answers of [f] when it is called on the entries of [l] one after the other,
    and its state afterwards. *)
Fixpoint answers {S V} (f : S -> bytes -> V -> S * bool) (s : S) (l : list (bytes * V)) : S * list bool :=
  match l with [] => (s, []) | (k, v) :: r => let '(s1, b) := f s k v in let '(s2, bs) := answers f s1 r in (s2, b :: bs) end.
(** What a range calls [f] on: a prefix [t] of the entries; every answer but the
    last is true, and the last is false unless nothing is left. *)
Definition ranged_over {S V} (f : S -> bytes -> V -> S * bool) (s : S) (all : list (bytes * V)) (s' : S) (t : list (bytes * V)) : Prop :=
  exists rest bs, all = t ++ rest /\ answers f s t = (s', bs) /\
    ((rest = [] /\ forallb (fun b => b) bs = true) \/ (exists b0, bs = b0 ++ [false] /\ forallb (fun b => b) b0 = true)).
Lemma range_until_spec S V (f : S -> bytes -> V -> S * bool) l : forall s s' t, range_until f s l = (s', t) -> ranged_over f s l s' t.
Proof.
  induction l as [|[k v] l IH]; intros s s' t; cbn [range_until].
  - intros [= <- <-]. exists [], []. split; [reflexivity|]. split; [reflexivity|]. left. auto.
  - destruct (f s k v) as [s1 [|]] eqn:F.
    + destruct (range_until f s1 l) as [s2 t2] eqn:R. intros [= <- <-]. destruct (IH _ _ _ R) as (rest & bs & E1 & E2 & D). exists rest, (true :: bs). split; [rewrite E1; reflexivity|]. cbn [answers]. rewrite F, E2. split; [reflexivity|].
      destruct D as [[D1 D2]|(b0 & -> & D)]; [left; auto|right]. exists (true :: b0). auto.
    + intros [= <- <-]. exists l, [false]. split; [reflexivity|]. cbn [answers]. rewrite F. split; [reflexivity|]. right. exists []. auto.
Qed.
Theorem C149_range : forall S V (f : S -> bytes -> V -> S * bool) s (m order : gmap V) s' t, map_ok m -> iterates order m -> meta_range f s order = (s', t) ->
  ranged_over f s (entries order) s' t /\ NoDup (map fst t) /\ forall k v, In (k, v) t -> mget m k = Some v.
Proof.
  intros S V f s m order s' t Hm [_ Hp] E. pose proof (range_until_spec _ _ _ _ _ _ _ E) as R. split; [exact R|]. destruct R as (rest & bs & E1 & _).
  assert (No : NoDup (map fst (entries order))) by (eapply Permutation_NoDup; [apply Permutation_map, Permutation_sym, Hp|exact Hm]). split.
  - rewrite E1, map_app in No. clear -No. induction (map fst t) as [|x l IH]; [constructor|]. inversion No as [|? ? N1 N2]; subst. constructor; [intros I; apply N1, in_or_app; left; exact I|exact (IH N2)].
  - intros k v I. apply in_assoc; [exact Hm|]. eapply Permutation_in; [exact Hp|]. rewrite E1. apply in_or_app. left. exact I.
Qed.
Lemma sorted_entries_keys V (m : gmap V) : map fst (sorted_entries m) = ordered_keys m.
Proof.
  unfold sorted_entries. assert (H : forall k, In k (ordered_keys m) -> exists v, mget m k = Some v) by (intros k; apply mget_keys).
  induction (ordered_keys m) as [|k l IH]; [reflexivity|]. cbn [flat_map]. destruct (H k (or_introl eq_refl)) as [v ->]. cbn [app map fst]. rewrite IH; [reflexivity|]. intros k' I. apply H. right. exact I.
Qed.
Theorem C149_range_ordered : forall S V (f : S -> bytes -> V -> S * bool) s (m : gmap V) s' t, map_ok m -> meta_range_ordered f s m = (s', t) ->
  exists all, ranged_over f s all s' t /\ StronglySorted str_lt (map fst all) /\ forall k v, In (k, v) all <-> mget m k = Some v.
Proof.
  intros S V f s m s' t Hm E. exists (sorted_entries m). split; [apply range_until_spec, E|]. split; [rewrite sorted_entries_keys; apply ordered_keys_sorted, Hm|].
  intros k v. unfold sorted_entries. rewrite in_flat_map. split.
  - intros (k' & I & J). destruct (mget m k') as [w|] eqn:W; [|contradiction]. destruct J as [J|[]]. injection J as -> ->. exact W.
  - intros W. exists k. rewrite W. split; [apply mget_keys; exists v; exact W|left; reflexivity].
Qed.
Example C149_ex : meta_range_ordered (fun n k v => (S n, beqb k (B "a"))) O (Some [(B "c", B "3"); (B "b", B "2"); (B "a", B "1")]) = (2%nat, [(B "a", B "1"); (B "b", B "2")]).
Proof. reflexivity. Qed.

(** ** C150: a Time is always returned in UTC *)
(** What the methods return does not depend on the zone of the Time, only on the
    instant; times come out in UTC, and texts end in Z. *)
Theorem C150_zone_free : forall a b, zt a = zt b ->
  zx_string a = zx_string b /\ zx_json a = zx_json b /\ zx_value a = zx_value b /\ zx_ptr a = zx_ptr b /\ z_utc a = z_utc b /\ z_is_zero a = z_is_zero b /\ (forall d, zx_add a d = zx_add b d).
Proof.
  intros a b E. rewrite !zx_string_same, !zx_json_same. unfold zx_value, zx_ptr, z_utc, z_is_zero, zx_add, z_add, z_trunc, z_utc. cbn [zt zo]. rewrite E. repeat split.
Qed.
Theorem C150_in_utc : forall z, (forall s, zx_string z = s -> z_is_zero z = true /\ s = [] \/ exists p, s = p ++ B "Z") /\
  (forall s, zx_json z = Some s -> z_is_zero z = true \/ exists p, s = p ++ B "Z" ++ [dquote]) /\
  (forall t, zx_value z = ZTime t -> zo t = None /\ zt t = zt z) /\ (forall t, zx_ptr z = Some t -> zo t = None /\ zt t = zt z).
Proof.
  intros z. split; [|split; [|split]].
  - intros s <-. rewrite zx_string_same. unfold time_string, z_is_zero. destruct (is_zero (zt z)); [left; auto|right]. unfold time_format. rewrite !app_assoc. eexists. reflexivity.
  - intros s. rewrite zx_json_same. unfold time_json, z_is_zero. destruct (is_zero (zt z)); [left; auto|]. destruct (_ && _); [|discriminate]. intros [= <-]. right. unfold time_format.
    exists ([dquote] ++ fmt_date (t_sec (zt z) / 86400) ++ B "T" ++ fmt_clock (t_sec (zt z) mod 86400) ++ fmt_frac 9 (t_nsec (zt z))). rewrite <- !app_assoc. reflexivity.
  - intros t. unfold zx_value. destruct (z_is_zero z); [discriminate|]. intros [= <-]. split; reflexivity.
  - intros t. unfold zx_ptr. destruct (z_is_zero _); [discriminate|]. intros [= <-]. split; reflexivity.
Qed.
(** UTC(), Now(), FromNow(), Add() and the parsers cut the instant to the
    millisecond below it, whatever the zone. *)
Theorem C150_instants : forall z d s, time_ok (zt z) ->
  ns_of (zt (zx_utc z)) = floor_ms (ns_of (zt z)) /\ ns_of (zt (zx_now z)) = floor_ms (ns_of (zt z)) /\
  ns_of (zt (zx_from_now z d)) = floor_ms (ns_of (zt z) + d) /\ ns_of (zt (zx_add z d)) = floor_ms (ns_of (zt z) + d) /\
  zt (zx_parse_time s) = parse_time s.
Proof.
  intros z d s H. destruct (TimeProofs.ns_trunc _ H) as [E1 _].
  assert (E2 : ns_of (trunc_ms (time_add (zt z) d)) = floor_ms (ns_of (zt z) + d)).
  { destruct (TimeProofs.ns_add (zt z) d H) as [E O]. rewrite (proj1 (TimeProofs.ns_trunc _ O)), E. reflexivity. }
  split; [exact E1|]. split; [exact E1|]. split; [exact E2|]. split; [exact E2|]. apply zx_parse_same.
Qed.
(** Every way to make a Time except decoding JSON makes one in UTC. *)
Theorem C150_made_in_utc_partial : forall z d tm local s old x, zo old = None ->
  zo (zx_utc z) = None /\ zo (zx_now z) = None /\ zo (zx_from_now z d) = None /\ zo (zx_from_unix_milli local tm) = None /\ zo (zx_parse_time s) = None /\ zo (zx_add z d) = None /\ zo (fst (zx_scan old x)) = None.
Proof.
  intros z d tm local s old x H. repeat split.
  - unfold zx_parse_time. destruct (is_empty s); reflexivity.
  - destruct x; cbn [zx_scan fst]; try reflexivity; [|exact H]. unfold zx_parse_time. destruct (is_empty s0); reflexivity.
Qed.
(** Refuted for JSON: the zone of the text stays in the Time, so it is not == to the
    same instant made in any other way. *)
Theorem C150_json_refuted : exists data w, zx_unjson zzero data = (w, true) /\ zo w <> None /\ w <> z_utc w /\ w <> zx_parse_time (zx_string w).
Proof.
  exists ([dquote] ++ B "2024-02-03T04:05:06+02:00" ++ [dquote]). eexists. split; [vm_compute; reflexivity|]. cbn [zo]. split; [discriminate|]. split; [discriminate|]. vm_compute. discriminate.
Qed.
Example C150_ex : zx_string (mkZ (mkTime 86400 5000000) (Some (-3600))) = B "0001-01-02T00:00:00.005Z". Proof. vm_compute. reflexivity. Qed.
Example C150_ex_format : z_format 3 (mkZ (mkTime 86400 5000000) (Some (-5400))) = B "0001-01-01T22:30:00.005-01:30". Proof. vm_compute. reflexivity. Qed.

(** ** C43: what MarshalJSON writes is the JSON text of the value *)
Lemma num_json t : JsonModel.scan_num t = Some (t, []) -> JsonModel.parse_json t = Some (JsonModel.JNum t).
Proof. intros H. apply (JsonProofs.parse_text (JsonModel.JNum t)). constructor. exact H. Qed.
Theorem C43_is_json : (forall v, exists t, JsonModel.parse_json (int64_json v) = Some (JsonModel.JNum t) /\ JsonModel.int_literal t = Some v) /\
  (forall v, exists t, JsonModel.parse_json (int32_json v) = Some (JsonModel.JNum t) /\ JsonModel.int_literal t = Some v) /\
  (forall v, uint32 v -> exists t, JsonModel.parse_json (id32_json v) = Some (JsonModel.JNum t) /\ JsonModel.int_literal t = Some v) /\
  (forall v, JsonModel.parse_json (bool_json v) = Some (JsonModel.JBool v)).
Proof.
  assert (N : forall v, exists t, JsonModel.parse_json (fmt_int 10 v) = Some (JsonModel.JNum t) /\ JsonModel.int_literal t = Some v).
  { intros v. exists (fmt_int 10 v). split; [apply num_json, JsonProofs.scan_num_int|apply JsonProofs.int_literal_fmt]. }
  split; [exact N|]. split; [exact N|]. split; [|intros [|]; reflexivity].
  intros v Hv. assert (E : id32_json v = fmt_int 10 v) by (unfold id32_json, fmt_int; destruct (Z.ltb_spec v 0); [unfold uint32 in Hv; lia|reflexivity]). rewrite E. apply N.
Qed.

(** ** Exact statements of what holds of refuted properties *)
(** C143: the options count exactly when the driver treats them as it would the
    default ones. *)
Theorem C143_exact_partial : forall o, (forall supported, begin_tx supported false o = sql_begin supported o) <-> o = None \/ o = Some default_opts.
Proof.
  intros o. split; [|intros H supported; apply C143_default_partial; exact H]. intros H. specialize (H (fun _ => true)). unfold begin_tx, sql_begin in H. destruct o as [x|]; [|left; reflexivity]. right. injection H as <-. reflexivity.
Qed.
(** C145: the values are kept exactly when they are all int32s. *)
Theorem C145_exact_partial : forall l, int32_array l = l <-> Forall int32 l.
Proof.
  intros l. split; [|apply C145_values_partial]. intros E. rewrite <- E. apply Forall_forall. intros x I. apply in_map_iff in I as (y & <- & _). apply (wrap_s_range 32 y). lia.
Qed.
Example C145_exact_ex : Forall int32 [-2147483648; 7; 2147483647]. Proof. unfold int32. repeat constructor; lia. Qed.

(** Exactly the texts it holds for: UTF-8 without quotes, backslashes and control
    characters. *)
Theorem C148_json_exact_partial : forall s, JsonModel.parse_json (quoted_ptr (Some s)) = Some (JsonModel.JStr s) <->
  JsonSpec.utf8_text s /\ Forall (fun c => 32 <= byte c /\ byte c <> 34 /\ byte c <> 92) s.
Proof. intros s. apply QuoteProofs.quoted_json. Qed.
Example C148_json_exact_ex : JsonModel.parse_json (quoted_ptr (Some (B "né"))) = Some (JsonModel.JStr (B "né")) /\ JsonModel.parse_json (quoted_ptr (Some (B "a\\b"))) = Some (JsonModel.JStr (B "a\b")).
Proof. split; vm_compute; reflexivity. Qed.


(** Reading JSON is the one maker that may leave a Time outside UTC, and it does
    so exactly when the text is not written with the letter Z: only an offset,
    even +00:00, is kept. *)
Lemma suf_getnum f s v r : getnum f s = Some (v, r) -> exists p, s = p ++ r.
Proof.
  destruct s as [|a [|b s]]; cbn [getnum]; [discriminate| |].
  - destruct (dec_digit a); [|discriminate]. destruct f; [discriminate|]. intros [= _ <-]. exists [a]. reflexivity.
  - destruct (dec_digit a); [|discriminate]. destruct (dec_digit b).
    + intros [= _ <-]. exists [a; b]. reflexivity.
    + destruct f; [discriminate|]. intros [= _ <-]. exists [a]. reflexivity.
Qed.
Lemma suf_lit c s r : lit c s = Some r -> exists p, s = p ++ r.
Proof. destruct s as [|d s]; [discriminate|]. cbn [lit]. destruct (ascii_dec d c); [|discriminate]. intros [= <-]. exists [d]. reflexivity. Qed.
Lemma suf_trans (a b c : bytes) : (exists p, a = p ++ b) -> (exists p, b = p ++ c) -> exists p, a = p ++ c.
Proof. intros [p ->] [q ->]. exists (p ++ q). apply app_assoc. Qed.
Lemma suf_ranged lo hi f s v r : ranged lo hi (getnum f s) = Some (v, r) -> exists p, s = p ++ r.
Proof.
  unfold ranged. destruct (getnum f s) as [[x y]|] eqn:E; [|discriminate]. destruct (_ && _); [|discriminate].
  intros [= -> ->]. exact (suf_getnum _ _ _ _ E).
Qed.
Lemma suf_date s v r : get_date s = Some (v, r) -> exists p, s = p ++ r.
Proof.
  unfold get_date, get_year. destruct (getnum true s) as [[a r1]|] eqn:E1; [|discriminate]. destruct (getnum true r1) as [[b r2]|] eqn:E2; [|discriminate].
  destruct (lit _ r2) as [r3|] eqn:E3; [|discriminate]. destruct (ranged 1 12 _) as [[m r4]|] eqn:E4; [|discriminate].
  destruct (lit _ r4) as [r5|] eqn:E5; [|discriminate]. destruct (getnum true r5) as [[d r6]|] eqn:E6; [|discriminate].
  destruct (_ && _); [|discriminate]. intros [= _ <-].
  eapply suf_trans; [exact (suf_getnum _ _ _ _ E1)|]. eapply suf_trans; [exact (suf_getnum _ _ _ _ E2)|]. eapply suf_trans; [exact (suf_lit _ _ _ E3)|].
  eapply suf_trans; [exact (suf_ranged _ _ _ _ _ _ E4)|]. eapply suf_trans; [exact (suf_lit _ _ _ E5)|]. exact (suf_getnum _ _ _ _ E6).
Qed.
Lemma suf_clock s v r : get_clock s = Some (v, r) -> exists p, s = p ++ r.
Proof.
  unfold get_clock. destruct (ranged 0 23 _) as [[a r1]|] eqn:E1; [|discriminate]. destruct (lit _ r1) as [r2|] eqn:E2; [|discriminate].
  destruct (ranged 0 59 (getnum true r2)) as [[b r3]|] eqn:E3; [|discriminate]. destruct (lit _ r3) as [r4|] eqn:E4; [|discriminate].
  destruct (ranged 0 59 (getnum true r4)) as [[d r5]|] eqn:E5; [|discriminate]. intros [= _ <-].
  eapply suf_trans; [exact (suf_ranged _ _ _ _ _ _ E1)|]. eapply suf_trans; [exact (suf_lit _ _ _ E2)|].
  eapply suf_trans; [exact (suf_ranged _ _ _ _ _ _ E3)|]. eapply suf_trans; [exact (suf_lit _ _ _ E4)|]. exact (suf_ranged _ _ _ _ _ _ E5).
Qed.
Lemma suf_digits s : exists p, s = p ++ snd (take_digits s).
Proof.
  induction s as [|c s [p IH]]; [exists []; reflexivity|]. cbn [take_digits]. destruct (dec_digit c).
  - destruct (take_digits s) as [l t]. cbn [snd] in *. exists (c :: p). cbn [app]. f_equal. exact IH.
  - exists []. reflexivity.
Qed.
Lemma suf_frac s : exists p, s = p ++ snd (get_frac s).
Proof.
  destruct s as [|c s]; [exists []; reflexivity|]. unfold get_frac.
  match goal with |- context[if ?b then _ else _] => destruct b end; [|exists []; reflexivity].
  destruct (suf_digits s) as [p E]. destruct (take_digits s) as [[|d l] t]; [exists []; reflexivity|]. cbn [snd] in *. exists (c :: p). cbn [app]. f_equal. exact E.
Qed.
Lemma last_num s v : getnum true s = Some (v, []) -> exists p c d, s = p ++ [c] /\ dec_digit c = Some d.
Proof.
  destruct s as [|a [|b [|x s]]]; cbn [getnum]; [discriminate| | |].
  - destruct (dec_digit a); discriminate.
  - destruct (dec_digit a); [|discriminate]. destruct (dec_digit b) as [d|] eqn:E; [|discriminate]. intros _. exists [a], b, d. split; [reflexivity|exact E].
  - destruct (dec_digit a); [|discriminate]. destruct (dec_digit b); discriminate.
Qed.
Lemma zone_end s o : get_zone s = Some (o, []) -> z_zone s = None /\ s = B "Z" \/ z_zone s = Some o /\ exists p c d, s = p ++ [c] /\ dec_digit c = Some d.
Proof.
  intros H. destruct s as [|c r]; [discriminate H|]. unfold z_zone. rewrite H. unfold get_zone in H.
  destruct (ascii_dec c (ascii_of_nat 90)) as [->|N].
  - injection H as _ ->. left. split; reflexivity.
  - right. split; [reflexivity|]. destruct (ranged 0 24 _) as [[h r1]|] eqn:E1; [|discriminate]. destruct (lit _ r1) as [r2|] eqn:E2; [|discriminate].
    destruct (ranged 0 60 _) as [[m r3]|] eqn:E3; [|discriminate].
    assert (r3 = []) as -> by (destruct (ascii_dec c (ascii_of_nat 43)); [congruence|]; destruct (ascii_dec c (ascii_of_nat 45)); congruence).
    unfold ranged in E3. destruct (getnum true r2) as [[m' r3]|] eqn:E4; [|discriminate]. destruct (_ && _); [|discriminate]. injection E3 as -> ->.
    destruct (last_num _ _ E4) as (p & x & d & -> & D). destruct (suf_ranged _ _ _ _ _ _ E1) as [p1 P1]. destruct (suf_lit _ _ _ E2) as [p2 P2].
    exists (c :: p1 ++ p2 ++ p), x, d. split; [|exact D]. rewrite P1, P2. cbn [app]. rewrite <- !app_assoc. reflexivity.
Qed.
Lemma parsed_zone s w : z_parse_rfc3339 s = Some w -> (zo w = None <-> exists p, s = p ++ B "Z").
Proof.
  unfold z_parse_rfc3339, parse_rfc3339. destruct (get_date s) as [[d r1]|] eqn:E1; [|discriminate]. destruct (lit _ r1) as [r2|] eqn:E2; [|discriminate].
  destruct (get_clock r2) as [[c r3]|] eqn:E3; [|discriminate]. destruct (suf_frac r3) as [p3 P3]. destruct (get_frac r3) as [n r4]. cbn [snd] in *.
  destruct (get_zone r4) as [[o r5]|] eqn:E5; [|discriminate]. unfold finished. destruct r5; [|discriminate]. intros [= <-]. cbn [zo].
  destruct (suf_trans _ _ _ (suf_date _ _ _ E1) (suf_trans _ _ _ (suf_lit _ _ _ E2) (suf_trans _ _ _ (suf_clock _ _ _ E3) (ex_intro _ p3 P3)))) as [q Q].
  destruct (zone_end _ _ E5) as [[-> Z]|(-> & p & x & y & X & D)].
  - split; [|reflexivity]. intros _. exists q. rewrite Q, Z. reflexivity.
  - split; [discriminate|]. intros [p' P']. exfalso. rewrite Q, X, app_assoc in P'. apply app_inj_tail in P'. destruct P' as [_ ->]. discriminate D.
Qed.
Theorem C150_json_exact_partial : forall old data w, zx_unjson old data = (w, true) ->
  w = zzero /\ (data = [] \/ data = [dquote; dquote]) \/ w = old /\ trim json_blanks data = B "null" \/
  exists s, trim json_blanks data = dquote :: s ++ [dquote] /\ (zo w = None <-> exists p, s = p ++ B "Z").
Proof.
  intros old data w. unfold zx_unjson. destruct data as [|c data]; [intros [= <-]; left; split; [reflexivity|left; reflexivity]|].
  cbn [is_empty orb]. destruct (beqb (c :: data) [dquote; dquote]) eqn:E.
  { apply beqb_eq in E. intros [= <-]. left. split; [reflexivity|right; exact E]. }
  cbv zeta. set (v := trim json_blanks (c :: data)). destruct (beqb v (B "null")) eqn:N.
  { apply beqb_eq in N. intros [= <-]. right. left. split; [reflexivity|exact N]. }
  destruct (unquote v) as [s|] eqn:U; [|discriminate]. destruct (z_parse_rfc3339 s) as [t|] eqn:P; [|discriminate]. intros [= <-].
  right. right. exists s. split; [|exact (parsed_zone _ _ P)].
  unfold unquote in U. destruct v as [|q r]; [discriminate|]. destruct (ascii_dec q dquote) as [->|]; [|discriminate]. destruct (json_tail r) eqn:J; [|discriminate]. injection U as <-.
  f_equal. assert (L : r <> []) by (destruct r; [discriminate J|discriminate]).
  assert (K : last r dquote = dquote).
  { clear -J. remember (length r) as k eqn:Hk. assert (Hle : (length r <= k)%nat) by lia. clear Hk. revert r J Hle. induction k as [|k IH]; intros [|a r] J Hle; try discriminate J; cbn [length] in Hle; [lia|].
    cbn [json_tail] in J. destruct (ascii_dec a dquote) as [->|]; [destruct r; [reflexivity|discriminate]|].
    assert (T : forall b, r <> [] -> last r dquote = dquote -> last (b :: r) dquote = dquote) by (intros b; destruct r; [congruence|intros _ X; exact X]).
    destruct (ascii_dec a (ascii_of_nat 92)).
    - destruct r as [|ee r']; [discriminate|]. apply T; [discriminate|]. cbn [length] in Hle.
      assert (T' : forall b r'', json_tail r'' = true -> last r'' dquote = dquote -> last (b :: r'') dquote = dquote) by (intros b [|x r'']; [discriminate|intros _ X; exact X]).
      destruct (in_set _ ee). { apply T'; [exact J|]. apply IH; [exact J|lia]. }
      destruct (ascii_dec ee (ascii_of_nat 117)); [|discriminate]. destruct r' as [|h1 [|h2 [|h3 [|h4 r'']]]]; try discriminate.
      repeat (apply andb_prop in J; let X := fresh in destruct J as [X J]). cbn [length] in Hle.
      pose proof (T' h4 r'' J (IH _ J ltac:(lia))) as R. exact R.
    - apply andb_prop in J. destruct J as [_ J]. apply T; [destruct r; discriminate|]. apply IH; [exact J|lia]. }
  pose proof (app_removelast_last dquote L) as R. rewrite K in R. exact R.
Qed.
Example C150_exact_ex : zo (fst (zx_unjson zzero (dquote :: B "2024-02-03T04:05:06Z" ++ [dquote]))) = None /\
  zo (fst (zx_unjson zzero (dquote :: B "2024-02-03T04:05:06+00:00" ++ [dquote]))) = Some 0. Proof. vm_compute. split; reflexivity. Qed.

(** What is started, whatever is asked for: a transaction of the driver's default
    isolation that can write; none inside another one. *)
Theorem C143_started_partial : forall supported o, begin_tx supported false o = ([mkOpts 0 false], supported (mkOpts 0 false)) /\ begin_tx supported true o = ([], false).
Proof. intros supported o. split; reflexivity. Qed.

(** ** C185: optional times *)
(** What database/sql writes for a sql.NullTime *)
Definition null_value (n : ztime * bool) : ztany := if snd n then ZTime (fst n) else ZNil.
(** A Time goes through TimePtr (or Ptr) and NullTime: NULL exactly for the zero Time;
    scanned back it is the same instant, in UTC. *)
Theorem C185_round_trip : forall z old, zx_scan old (null_value (null_time zzero (zx_timeptr z))) = (z_utc z, true) /\ zx_scan old (null_value (null_time zzero (zx_ptr z))) = (z_utc z, true).
Proof.
  intros z old. assert (Z0 : z_is_zero z = true -> z_utc z = zzero).
  { unfold z_is_zero, is_zero, z_utc, zzero. intros H. apply andb_true_iff in H. destruct H as [H1 H2]. apply Z.eqb_eq in H1, H2. f_equal. destruct (zt z) as [a b]. cbn in *. subst. reflexivity. }
  unfold zx_timeptr, zx_ptr. change (z_is_zero (z_utc z)) with (z_is_zero z). destruct (z_is_zero z); cbn [null_time null_value fst snd zx_scan]; [rewrite Z0 by reflexivity; split; reflexivity|split; reflexivity].
Qed.
Theorem C185_null : forall z, (null_value (null_time zzero (zx_timeptr z)) = ZNil <-> ns_of (zt z) = ns_of zero_time /\ t_nsec (zt z) = 0) /\ (zx_timeptr z = None <-> zx_ptr z = None) /\
  (forall t, zx_timeptr z = Some t -> t = z) /\ (forall t : ztime, null_time zzero (Some t) = (t, true)) /\ null_time zzero None = (zzero, false).
Proof.
  intros z. split; [|split; [|split; [|split]]].
  - assert (K : z_is_zero z = true <-> ns_of (zt z) = ns_of zero_time /\ t_nsec (zt z) = 0).
    { unfold z_is_zero, is_zero, ns_of. rewrite andb_true_iff, !Z.eqb_eq. split; [intros [-> ->]; split; reflexivity|]. intros [H N]. split; [|exact N]. rewrite N in H. unfold zero_time, nano in H. cbn [t_sec t_nsec] in H. lia. }
    rewrite <- K. unfold zx_timeptr. destruct (z_is_zero z); cbn; split; congruence.
  - unfold zx_timeptr, zx_ptr. change (z_is_zero (z_utc z)) with (z_is_zero z). destruct (z_is_zero z); split; congruence.
  - unfold zx_timeptr. destruct (z_is_zero z); congruence.
  - reflexivity.
  - reflexivity.
Qed.
(** Validate asks the model, if it can be asked. *)
Theorem C185_validate : forall E (m : option (option E)) e, validate m = Some e <-> m = Some (Some e).
Proof. intros E m e. destruct m as [[x|]|]; cbn [validate]; split; congruence. Qed.
Example C185_ex : null_value (null_time zzero (zx_timeptr zzero)) = ZNil /\ null_value (null_time zzero (zx_timeptr (mkZ (mkTime 5 7) (Some 3600)))) = ZTime (mkZ (mkTime 5 7) (Some 3600)).
Proof. split; reflexivity. Qed.

(** ** Assumptions *)
Print Assumptions C143_options_refuted.
Print Assumptions C143_default_partial.
Print Assumptions C144_value_refuted.
Print Assumptions C144_value_partial.
Print Assumptions C144_int_partial.
Print Assumptions C144_panics_partial.
Print Assumptions C58_first_builder.
Print Assumptions C58_no_builder.
Print Assumptions C145_values_refuted.
Print Assumptions C145_values_partial.
Print Assumptions C145_injective.
Print Assumptions C148_string.
Print Assumptions C148_quoted_injective.
Print Assumptions C148_json_refuted.
Print Assumptions C148_json_partial.
Print Assumptions C149_keys.
Print Assumptions C149_ordered_keys.
Print Assumptions C149_range.
Print Assumptions C149_range_ordered.
Print Assumptions C150_zone_free.
Print Assumptions C150_in_utc.
Print Assumptions C150_instants.
Print Assumptions C150_made_in_utc_partial.
Print Assumptions C150_json_refuted.
Print Assumptions C43_is_json.
Print Assumptions C143_exact_partial.
Print Assumptions C145_exact_partial.
Print Assumptions C148_json_exact_partial.
Print Assumptions C150_json_exact_partial.
Print Assumptions C143_started_partial.
Print Assumptions C185_round_trip.
Print Assumptions C185_null.
Print Assumptions C185_validate.
