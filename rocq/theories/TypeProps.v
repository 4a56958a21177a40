(** Property theorems C37, C43-C49, C53, C54, C85-C88: SQL value types,
    not-found errors, Merge. *)
From Verif Require Import GoBase GoBaseFacts IdModel IdSpec IdProofs TypeModel TypeSpec TypeProofs.
From Coq Require Import Permutation Sorted.
Open Scope Z_scope.

Definition quoted (s : bytes) : bytes := [dquote] ++ s ++ [dquote].

(** ** C37 *)
(** ID, ID32, Int64, Int32, Bool and Float keep the value of the previous row. *)
Theorem C37_null_refuted :
  (exists old, id_val (fst (id_scan old ANil)) <> 0 /\ snd (id_scan old ANil) = true) /\
  (exists old, int64_scan old ANil = (old, true) /\ old <> 0) /\ (exists old, int32_scan old ANil = (old, true) /\ old <> 0) /\
  (exists old, id32_scan old ANil = (old, true) /\ old <> 0) /\ bool_scan true ANil = (true, true) /\
  (exists old, float_scan old ANil = (old, true) /\ float_zero old = false).
Proof.
  split; [exists (id_new 5); split; [discriminate|reflexivity]|]. split; [exists 5; split; [reflexivity|discriminate]|].
  split; [exists 5; split; [reflexivity|discriminate]|]. split; [exists 5; split; [reflexivity|discriminate]|]. split; [reflexivity|].
  exists 1. split; reflexivity.
Qed.
(** NULLString, UUID and IDArray are reset, whatever they held. *)
Theorem C37_null_partial : forall show s u a,
  nullstring_scan show s ANil = ([], true) /\ uuid_scan u ANil = ([], true) /\ ida_scan a ANil = ([], true).
Proof. intros. repeat split. Qed.
Example C37_ex : uuid_scan (B "some text") ANil = ([], true). Proof. reflexivity. Qed.

(** ** C43 *)
(** Round trip, bare or quoted, into any destination. *)
Theorem C43_int64_json : forall v old data, int64 v -> data = int64_json v \/ data = quoted (int64_json v) -> int64_unjson old data = (v, true).
Proof.
  intros v old data Hv Hd. apply (num_roundtrip _ old (fmt_int 10 v)); [apply fmt_int_unquoted|apply parse_int_fmt; [lia|exact Hv]|apply fmt_int_zero|exact Hd].
Qed.
Theorem C43_int32_json : forall v old data, int32 v -> data = int32_json v \/ data = quoted (int32_json v) -> int32_unjson old data = (v, true).
Proof.
  intros v old data Hv Hd. apply (num_roundtrip _ old (fmt_int 10 v)); [apply fmt_int_unquoted|apply parse_int_fmt; [lia|exact Hv]|apply fmt_int_zero|exact Hd].
Qed.
Theorem C43_id32_json : forall v old data, uint32 v -> data = id32_json v \/ data = quoted (id32_json v) -> id32_unjson old data = (v, true).
Proof.
  intros v old data Hv Hd. unfold uint32 in Hv.
  apply (num_roundtrip _ old (fmt_uint 10 v)); [apply fmt_unquoted; lia|apply parse_uint_fmt; lia|apply fmt_uint_zero; lia|exact Hd].
Qed.
Theorem C43_bool_json : forall v old data, data = bool_json v \/ data = quoted (bool_json v) -> bool_unjson old data = (v, true).
Proof. intros [|] old data [->| ->]; reflexivity. Qed.
(** Exactly what is accepted (after stripping quotes), the value stored, and the
    destination untouched on error. *)
Theorem C43_int64_accepts : forall old data, let '(w, ok) := int64_unjson old data in let s := trim [dquote] data in
  (ok = true <-> zero_word s \/ exists v, int_text s v /\ int64 v) /\ (ok = false -> w = old) /\
  (zero_word s -> w = 0) /\ (forall v, ~ zero_word s -> int_text s v -> int64 v -> w = v).
Proof.
  intros old data. pose proof (num_unjson_spec (parse_int 64) old data) as H. unfold int64_unjson. destruct (num_unjson _ old data) as [w ok].
  cbv zeta in *. set (s := trim [dquote] data) in *. destruct H as (H1 & H2 & H3 & H4).
  split; [|split; [exact H2|split; [exact H3|]]].
  - rewrite H1. split; (intros [Hz|[v Hv]]; [left; exact Hz|right; exists v]); [apply (parse_int_iff 64 s v ltac:(lia)) in Hv; exact Hv|apply (parse_int_iff 64 s v ltac:(lia)); exact Hv].
  - intros v Hz Hv Hr. apply (H4 Hz v). apply (parse_int_iff 64 s v ltac:(lia)). split; assumption.
Qed.
Theorem C43_int32_accepts : forall old data, let '(w, ok) := int32_unjson old data in let s := trim [dquote] data in
  (ok = true <-> zero_word s \/ exists v, int_text s v /\ int32 v) /\ (ok = false -> w = old) /\
  (zero_word s -> w = 0) /\ (forall v, ~ zero_word s -> int_text s v -> int32 v -> w = v).
Proof.
  intros old data. pose proof (num_unjson_spec (parse_int 32) old data) as H. unfold int32_unjson. destruct (num_unjson _ old data) as [w ok].
  cbv zeta in *. set (s := trim [dquote] data) in *. destruct H as (H1 & H2 & H3 & H4).
  split; [|split; [exact H2|split; [exact H3|]]].
  - rewrite H1. split; (intros [Hz|[v Hv]]; [left; exact Hz|right; exists v]); [apply (parse_int_iff 32 s v ltac:(lia)) in Hv; exact Hv|apply (parse_int_iff 32 s v ltac:(lia)); exact Hv].
  - intros v Hz Hv Hr. apply (H4 Hz v). apply (parse_int_iff 32 s v ltac:(lia)). split; assumption.
Qed.
Theorem C43_id32_accepts : forall old data, let '(w, ok) := id32_unjson old data in let s := trim [dquote] data in
  (ok = true <-> zero_word s \/ (is_dec s /\ dec_val s < 2 ^ 32)) /\ (ok = false -> w = old) /\
  (zero_word s -> w = 0) /\ (~ zero_word s -> is_dec s -> dec_val s < 2 ^ 32 -> w = dec_val s).
Proof.
  intros old data. pose proof (num_unjson_spec (parse_uint 32) old data) as H. unfold id32_unjson. destruct (num_unjson _ old data) as [w ok].
  cbv zeta in *. set (s := trim [dquote] data) in *. destruct H as (H1 & H2 & H3 & H4).
  split; [|split; [exact H2|split; [exact H3|]]].
  - rewrite H1. split; (intros [Hz|Hv]; [left; exact Hz|right]).
    + destruct Hv as [v Hv]. apply parse_uint_iff in Hv as (A & -> & C); [|lia]. split; assumption.
    + exists (dec_val s). apply parse_uint_iff; [lia|]. tauto.
  - intros Hz Hv Hr. apply (H4 Hz (dec_val s)). apply parse_uint_iff; [lia|]. tauto.
Qed.
(** Bool rejects nothing: any other text silently becomes false. *)
Theorem C43_bool_rejects_refuted : ~ forall old data, (forall b, trim [dquote] data <> bool_json b) -> bool_unjson old data = (old, false).
Proof. intros H. specialize (H true (B "yes")). vm_compute in H. assert (X : (false, true) = (true, false)); [|discriminate]. apply H. intros [|]; discriminate. Qed.
Example C43_ex : int32_unjson 7 (B "2147483648") = (7, false) /\ int32_unjson 7 (B "-2147483648") = (- 2 ^ 31, true) /\
  id32_unjson 7 (quoted (B "4294967295")) = (2 ^ 32 - 1, true) /\ int64_unjson 7 (B "1e3") = (7, false).
Proof. vm_compute. repeat split; reflexivity. Qed.

(** Exactly what Bool reads: the three spellings of true, everything else is
    false; nothing is an error. *)
Theorem C43_bool_exact_partial : forall old data, snd (bool_unjson old data) = true /\
  (fst (bool_unjson old data) = true <-> In (trim [dquote] data) [B "true"; B "TRUE"; B "1"]).
Proof.
  intros old data. split; [reflexivity|]. unfold bool_unjson. cbn [fst]. set (s := trim _ _).
  rewrite !orb_true_iff, !beqb_eq. cbn [In]. split; [intros [[H|H]|H]|intros [H|[H|[H|[]]]]]; auto.
Qed.
(** Int64.QuotedString is the number between quotes, and UnmarshalJSON reads it. *)
Theorem C43_int64_quoted : forall v old, int64 v -> int64_quoted v = quoted (int64_json v) /\ int64_unjson old (int64_quoted v) = (v, true).
Proof.
  intros v old H. assert (E : int64_quoted v = quoted (int64_json v)) by reflexivity. split; [exact E|]. rewrite E. apply C43_int64_json; [exact H|right; reflexivity].
Qed.
Example C43_bool_exact_ex : bool_unjson false (B "1") = (true, true) /\ bool_unjson true (B "True") = (false, true) /\ int64_quoted (-5) = quoted (B "-5").
Proof. vm_compute. repeat split; reflexivity. Qed.

(** ** C44 *)
Theorem C44_int64_value_scan : forall v, int64 v -> int64_scan 0 (int64_value v) = (v, true) /\ (int64_value v = ANil <-> v = 0).
Proof.
  intros v _. unfold int64_value, int_value. destruct (v =? 0) eqn:E; [apply Z.eqb_eq in E; subst v; split; [reflexivity|tauto]|].
  apply Z.eqb_neq in E. split; [reflexivity|split; [discriminate|contradiction]].
Qed.
Theorem C44_int32_value_scan : forall v, int32 v -> int32_scan 0 (int32_value v) = (v, true) /\ (int32_value v = ANil <-> v = 0).
Proof.
  intros v Hv. unfold int32_value, int_value. destruct (v =? 0) eqn:E; [apply Z.eqb_eq in E; subst v; split; [reflexivity|tauto]|].
  apply Z.eqb_neq in E. split; [cbn; unfold i32; rewrite wrap_s_id by (try lia; exact Hv); reflexivity|split; [discriminate|contradiction]].
Qed.
Theorem C44_id32_value_scan : forall v, uint32 v -> id32_scan 0 (id32_value v) = (v, true) /\ (id32_value v = ANil <-> v = 0).
Proof.
  intros v Hv. unfold id32_value, int_value. destruct (v =? 0) eqn:E; [apply Z.eqb_eq in E; subst v; split; [reflexivity|tauto]|].
  apply Z.eqb_neq in E. unfold uint32 in Hv. split; [cbn; unfold u32, u64; rewrite !wrap_u_id by (rewrite ?wrap_u_id; lia); reflexivity|split; [discriminate|contradiction]].
Qed.
Theorem C44_bool_value_scan : forall v, bool_scan false (bool_value v) = (v, true) /\ (bool_value v = ANil <-> v = false).
Proof. intros [|]; (split; [reflexivity|]); cbn; split; discriminate || reflexivity. Qed.
(** Scanning any integer stores the number of the type's range congruent to it,
    so it is exact iff the integer is in range. *)
Theorem C44_modular : forall x n old, any_ok x -> int_of x = Some n ->
  (exists w, int64_scan old x = (w, true) /\ int64 w /\ (w - n) mod 2 ^ 64 = 0 /\ (w = n <-> int64 n)) /\
  (exists w, int32_scan old x = (w, true) /\ int32 w /\ (w - n) mod 2 ^ 32 = 0 /\ (w = n <-> int32 n)) /\
  (exists w, id32_scan old x = (w, true) /\ uint32 w /\ (w - n) mod 2 ^ 32 = 0 /\ (w = n <-> uint32 n)) /\
  (exists b, forall o, bool_scan o x = (b, true) /\ (b = true <-> 0 < n)).
Proof.
  assert (S : forall w z, 0 < w -> (wrap_s w z - z) mod 2 ^ w = 0).
  { intros w z Hw. unfold wrap_s. rewrite <- Z.sub_add_distr, Zminus_mod_idemp_l. replace (z + 2 ^ (w - 1) - (2 ^ (w - 1) + z)) with 0 by lia. apply Z.mod_0_l. pose proof (pow_half w Hw). lia. }
  assert (U : forall w z, 0 < w -> (wrap_u w z - z) mod 2 ^ w = 0).
  { intros w z Hw. unfold wrap_u. rewrite Zminus_mod_idemp_l, Z.sub_diag. apply Z.mod_0_l. pose proof (pow_half w Hw). lia. }
  assert (I3264 : forall z, i32 (i64 z) = i32 z).
  { intros z. unfold i32, i64, wrap_s. f_equal. set (a := z + 2 ^ (64 - 1)). rewrite (Z.mod_eq a (2 ^ 64)) by lia.
    replace (a - 2 ^ 64 * (a / 2 ^ 64) - 2 ^ (64 - 1) + 2 ^ (32 - 1)) with (z + 2 ^ (32 - 1) + (- (2 ^ 32 * (a / 2 ^ 64))) * 2 ^ 32) by (unfold a; lia).
    apply Z.mod_add. lia. }
  assert (U3264 : forall z, u32 (u64 z) = u32 z).
  { intros z. unfold u32, u64, wrap_u. rewrite (Z.mod_eq z (2 ^ 64)) by lia.
    replace (z - 2 ^ 64 * (z / 2 ^ 64)) with (z + (- (2 ^ 32 * (z / 2 ^ 64))) * 2 ^ 32) by lia. apply Z.mod_add. lia. }
  assert (C64 : forall n, int64 (i64 n) /\ (i64 n - n) mod 2 ^ 64 = 0 /\ (i64 n = n <-> int64 n)).
  { intros n. split; [exact (wrap_s_range 64 n ltac:(lia))|split; [exact (S 64 n ltac:(lia))|]]. split; [intros <-; exact (wrap_s_range 64 n ltac:(lia))|intros H; exact (wrap_s_id 64 n ltac:(lia) H)]. }
  assert (C32 : forall n, int32 (i32 n) /\ (i32 n - n) mod 2 ^ 32 = 0 /\ (i32 n = n <-> int32 n)).
  { intros n. split; [exact (wrap_s_range 32 n ltac:(lia))|split; [exact (S 32 n ltac:(lia))|]]. split; [intros <-; exact (wrap_s_range 32 n ltac:(lia))|intros H; exact (wrap_s_id 32 n ltac:(lia) H)]. }
  assert (CU : forall n, uint32 (u32 n) /\ (u32 n - n) mod 2 ^ 32 = 0 /\ (u32 n = n <-> uint32 n)).
  { intros n. split; [exact (wrap_u_range 32 n ltac:(lia))|split; [exact (U 32 n ltac:(lia))|]]. split; [intros <-; exact (wrap_u_range 32 n ltac:(lia))|intros H; exact (wrap_u_id 32 n H)]. }
  intros x n old Hx Hn. destruct x as [|z|z|z|z|z|s|s|b|z|z|s v|z]; try discriminate; injection Hn as ->; cbn in Hx; repeat split; cbn [int64_scan int32_scan id32_scan bool_scan].
  all: try (exists n; split; [reflexivity|]; split; [exact Hx|]; split; [rewrite Z.sub_diag; reflexivity|tauto]).
  all: try (exists (i64 n); split; [reflexivity|exact (C64 n)]).
  all: try (exists (i32 n); split; [rewrite ?I3264; reflexivity|exact (C32 n)]).
  all: try (exists (u32 n); split; [rewrite ?U3264; reflexivity|exact (CU n)]).
  all: exists (0 <? n); intros o; split; [reflexivity|apply Z.ltb_lt].
Qed.
Example C44_ex : int32_scan 0 (AInt64 4294967299) = (3, true) /\ id32_scan 0 (AInt64 (-1)) = (2 ^ 32 - 1, true). Proof. vm_compute. split; reflexivity. Qed.

(** ** C45 *)
Theorem C45_out_of_range_refuted :
  int32_scan 0 (AInt64 (2 ^ 32)) = (0, true) /\ id32_scan 0 (AInt64 (-1)) = (2 ^ 32 - 1, true) /\
  int64_scan 0 (AUint64 (2 ^ 63)) = (- 2 ^ 63, true) /\ id_val (fst (id_scan None (AInt64 (-1)))) = 2 ^ 64 - 1.
Proof. vm_compute. repeat split; reflexivity. Qed.
(** Integers that fit are stored as they are; values of other kinds are
    rejected and leave the destination alone. *)
Theorem C45_in_range_partial : forall x old, any_ok x ->
  match int_of x with
  | Some n => (int64 n -> int64_scan old x = (n, true)) /\ (int32 n -> int32_scan old x = (n, true)) /\ (uint32 n -> id32_scan old x = (n, true))
  | None => x <> ANil -> int64_scan old x = (old, false) /\ int32_scan old x = (old, false) /\ id32_scan old x = (old, false)
  end.
Proof.
  intros x old Hx. destruct (int_of x) as [n|] eqn:E.
  - destruct (C44_modular x n old Hx E) as ((w1 & A1 & _ & _ & A2) & (w2 & B1 & _ & _ & B2) & (w3 & D1 & _ & _ & D2) & _).
    repeat split; intros H; [rewrite A1, (proj2 A2 H)|rewrite B1, (proj2 B2 H)|rewrite D1, (proj2 D2 H)]; reflexivity.
  - destruct x; try discriminate; intros N; try congruence; repeat split.
Qed.

(** ** C46 *)
(** 36 characters, dashes at 8, 13, 18 and 23, byte [i] as two upper-case hex
    digits at SQL Server's position for it; injective. *)
Theorem C46_uuid_bytes : forall b old, length b = 16%nat -> exists t, uuid_scan old (ABytes b) = (t, true) /\
  length t = 36%nat /\ (forall i, (i < 16)%nat -> firstn 2 (skipn (nth i uuid_pos O) t) = hex_byte (nth i b zero)) /\
  Forall (fun p => nth p t zero = ascii_of_nat 45) [8; 13; 18; 23]%nat /\ Forall (fun c => c = ascii_of_nat 45 \/ is_hex_upper c) t.
Proof. intros b old H. exists (uuid_text b). split; [cbn; rewrite H; reflexivity|]. apply uuid_shape. exact H. Qed.
Theorem C46_uuid_injective : forall b c old, length b = 16%nat -> length c = 16%nat ->
  fst (uuid_scan old (ABytes b)) = fst (uuid_scan old (ABytes c)) -> b = c.
Proof. intros b c old Hb Hc. cbn. rewrite Hb, Hc. cbn. apply uuid_inj; assumption. Qed.
Theorem C46_uuid_text : forall s old, uuid_scan old (AStr s) = (s, true) /\ uuid_scan old (uuid_value s) = (s, true) /\ (uuid_value s = ANil <-> s = []).
Proof. intros [|c s] old; cbn; repeat split; try congruence; discriminate. Qed.
Example C46_ex : uuid_scan [] (ABytes (map ascii_of_nat [0; 17; 34; 51; 68; 85; 102; 119; 136; 153; 170; 187; 204; 221; 238; 255]%nat)) =
  (B "33221100-5544-7766-8899-AABBCCDDEEFF", true).
Proof. reflexivity. Qed.

(** ** C47 *)
Theorem C47_uuid_length_refuted : ~ forall b old, length b <> 16%nat -> snd (uuid_scan old (ABytes b)) = false.
Proof. intros H. specialize (H (B "short") []). vm_compute in H. discriminate H. discriminate. Qed.
(** What the code does: no error, and the destination keeps its old value. *)
Theorem C47_uuid_length_partial : forall b old, length b <> 16%nat -> uuid_scan old (ABytes b) = (old, true).
Proof. intros b old H. cbn. apply Nat.eqb_neq in H. rewrite H. reflexivity. Qed.

(** ** C48 *)
(** For Metadata ([V] = string) and KVSet ([V] = []string), every iteration
    order of the merged map. *)
Theorem C48_merge : forall V (n m : gmap V) order k, map_ok m -> Permutation order (entries m) ->
  mget (merge_in n order) k = match mget m k with Some v => Some v | None => mget n k end.
Proof. intros. apply merge_get; assumption. Qed.
Theorem C48_merge_ok : forall V (n : gmap V) order, map_ok n -> map_ok (merge_in n order).
Proof. intros V n order H. apply fold_put_nodup. exact H. Qed.
Theorem C48_merge_idempotent : forall V (n m : gmap V) o1 o2, map_ok m -> Permutation o1 (entries m) -> Permutation o2 (entries m) ->
  same_map (merge_in (merge_in n o1) o2) (merge_in n o1).
Proof. intros V n m o1 o2 Hm H1 H2 k. rewrite (merge_get _ m o2), (merge_get _ m o1) by assumption. destruct (mget m k); reflexivity. Qed.
Theorem C48_merge_associative : forall V (a b c : gmap V) ob oc oc' obc, map_ok b -> map_ok c ->
  Permutation ob (entries b) -> Permutation oc (entries c) -> Permutation oc' (entries c) -> Permutation obc (entries (merge_in b oc')) ->
  same_map (merge_in (merge_in a ob) oc) (merge_in a obc).
Proof.
  intros V a b c ob oc oc' obc Hb Hc H1 H2 H3 H4 k. rewrite (merge_get _ c oc), (merge_get _ b ob), (merge_get _ (merge_in b oc') obc), (merge_get _ c oc');
    try assumption; [|apply C48_merge_ok; exact Hb]. destruct (mget c k); [reflexivity|]. destruct (mget b k); reflexivity.
Qed.
(** Maps are references.  The merge changes no other map; in particular not [m],
    even when [m] and [n] are the same map. *)
Theorem C48_argument_unchanged : forall V (h : mheap V) n m order b,
  (forall x, n = Some x -> (x < length h)%nat) -> (forall x, m = Some x -> (x < length h)%nat) ->
  Forall (fun l => NoDup (map fst l)) h ->
  Permutation order (match m with Some x => nth x h [] | None => [] end) ->
  let h' := fst (merge_heap h n m order) in
  (Some b <> n -> (b < length h)%nat -> nth b h' [] = nth b h []) /\
  (forall x k, m = Some x -> assoc k (nth x h' []) = assoc k (nth x h [])).
Proof.
  intros V h n m order b Hn Hm Hh Hp h'. split.
  - intros Hb Hl. unfold h', merge_heap. destruct n as [a|]; cbn [fst]; [|apply app_nth1; exact Hl]. apply upd_nth_other. congruence.
  - intros x k ->. specialize (Hm x eq_refl). unfold h', merge_heap. destruct n as [a|]; cbn [fst]; [|rewrite app_nth1 by exact Hm; reflexivity].
    destruct (Nat.eq_dec a x) as [->|Hax]; [|rewrite upd_nth_other by exact Hax; reflexivity].
    rewrite upd_nth_same by exact Hm. assert (Nd : NoDup (map fst (nth x h []))) by (apply (proj1 (Forall_forall _ _) Hh); apply nth_In; exact Hm).
    assert (Ho : NoDup (map fst order)) by (eapply Permutation_NoDup; [apply Permutation_map, Permutation_sym, Hp|exact Nd]).
    rewrite fold_put_assoc by exact Ho. rewrite (assoc_perm k order _ Ho Hp). destruct (assoc k (nth x h [])); reflexivity.
Qed.
Example C48_ex : let n := Some [(B "a", B "1"); (B "b", B "2")] in let m := Some [(B "b", B "3"); (B "c", B "4")] in
  map_ok m /\ merge_in n [(B "c", B "4"); (B "b", B "3")] = Some [(B "a", B "1"); (B "b", B "3"); (B "c", B "4")] /\ merge_in (V := bytes) None [] = Some [].
Proof. split; [repeat constructor; cbn; intuition discriminate|split; reflexivity]. Qed.

(** ** C49 *)
Theorem C49_ordered : forall (m : gmap bytes), map_ok m ->
  exists kvs, ordered_pairs m = flat_map (fun kv => [fst kv; snd kv]) kvs /\
  StronglySorted str_lt (map fst kvs) /\ (forall k v, In (k, v) kvs <-> mget m k = Some v).
Proof.
  intros m H. exists (map (fun k => (k, match mget m k with Some v => v | None => [] end)) (ordered_keys m)). split; [|split].
  - unfold ordered_pairs. induction (ordered_keys m) as [|k l IH]; [reflexivity|]. cbn in *. rewrite IH. reflexivity.
  - rewrite map_map, map_id. apply ordered_keys_sorted. exact H.
  - intros k v. rewrite in_map_iff. split.
    + intros (k' & E & I). injection E as -> <-. apply mget_keys in I as [w W]. rewrite W. reflexivity.
    + intros E. exists k. rewrite E. split; [reflexivity|]. apply mget_keys. exists v. exact E.
Qed.
Theorem C49_lossless : forall m1 m2 : gmap bytes, ordered_pairs m1 = ordered_pairs m2 -> same_map m1 m2.
Proof.
  intros m1 m2 H k. apply pairs_inj in H as [H1 H2]. pose proof (mget_keys m1 k) as K1. pose proof (mget_keys m2 k) as K2. rewrite <- H1 in K2.
  destruct (in_dec bytes_dec k (ordered_keys m1)) as [I|I].
  - specialize (H2 k I). destruct (proj1 K1 I) as [v1 E1]. destruct (proj1 K2 I) as [v2 E2]. rewrite E1, E2 in *. congruence.
  - destruct (mget m1 k) as [v1|]; [exfalso; apply I, K1; exists v1; reflexivity|]. destruct (mget m2 k) as [v2|]; [exfalso; apply I, K2; exists v2; reflexivity|reflexivity].
Qed.
Example C49_ex : ordered_pairs (Some [(B "b", B "2"); (B "a", B "1"); (B "ab", B "3")]) = [B "a"; B "1"; B "ab"; B "3"; B "b"; B "2"]. Proof. reflexivity. Qed.

(** ** C53 *)
Theorem C53_classification : forall e t i, is_not_found (check_not_found e t i) = is_not_found e.
Proof. exact check_keeps. Qed.
Theorem C53_nil : forall e t i, check_not_found e t i = None <-> e = None.
Proof. intros [x|] t i; [|cbn; tauto]. unfold check_not_found. destruct (_ || _); split; discriminate. Qed.
(** The original error stays in the chain of causes. *)
Theorem C53_original_reachable : forall x t i, exists r, check_not_found (Some x) t i = Some r /\ In x (chain r).
Proof. exact check_reaches. Qed.
(** Once CheckNotFoundError has seen a not-found error, no wrapping hides it:
    every error that has the result among its causes is a not-found error. *)
Theorem C53_survives_wrapping : forall x t i r w, check_not_found (Some x) t i = Some r -> is_not_found (Some x) = true ->
  In r (chain w) -> is_not_found (Some w) = true.
Proof.
  assert (Sub : forall w r c, In r (chain w) -> In c (chain r) -> In c (chain w)).
  { fix IH 1. intros w r c Hr Hc. destruct w as [ty m|t' i' [c'|]|e'|m e']; cbn [chain] in *; (destruct Hr as [<-|Hr]; [exact Hc|]).
    - destruct Hr.
    - right. exact (IH c' r c Hr Hc).
    - destruct Hr.
    - right. exact (IH e' r c Hr Hc).
    - right. exact (IH e' r c Hr Hc). }
  assert (L : forall f w r, In r (chain w) -> existsb f (chain r) = true -> existsb f (chain w) = true).
  { intros f w r H E. apply existsb_exists in E as (c & E1 & E2). apply existsb_exists. exists c. split; [exact (Sub w r c H E1)|exact E2]. }
  intros x t i r w Hc Hn Hw. unfold check_not_found in Hc. destruct (is_no_rows x || contains no_rows_text (err_text x)) eqn:E; injection Hc as <-.
  - unfold is_not_found. assert (A : as_not_found w = true) by (apply (L _ w _ Hw); reflexivity). rewrite A, orb_true_r. reflexivity.
  - unfold is_not_found in Hn |- *. apply orb_false_iff in E as [E1 E2]. rewrite E1, E2 in Hn. cbn [orb] in Hn. rewrite orb_false_r in Hn.
    assert (A : as_not_found w = true) by (apply (L _ w _ Hw); exact Hn). rewrite A, orb_true_r. reflexivity.
Qed.
(** (ErrorNotFound).Is: equal iff table and ID are equal. *)
Theorem C53_is_by_table_and_id : forall t i c t' i' c', not_found_is (ENotFound t i c) (ENotFound t' i' c') = true <-> t = t' /\ i = i'.
Proof. intros. apply beqb2. Qed.
Example C53_ex : let e := EWrap (B "query failed") no_rows in
  is_not_found (Some e) = true /\ check_not_found (Some e) (B "users") (B "7") = Some (EStack (ENotFound (B "users") (B "7") (Some e))) /\
  is_not_found (check_not_found (Some (ELeaf 1 (B "timeout"))) (B "users") (B "7")) = false.
Proof. vm_compute. repeat split; reflexivity. Qed.

(** ** C54 *)
Theorem C54_merge_field : forall d s i x, length d = length s -> nth_error s i = Some x ->
  exists y, nth_error d i = Some y /\
    (field_zero x -> nth_error (merge_struct d s) i = Some y) /\ (~ field_zero x -> nth_error (merge_struct d s) i = Some x).
Proof.
  intros d s i x HL HN. destruct (merge_nth d s i x HL HN) as (y & Y1 & Y2). exists y. split; [exact Y1|].
  destruct (field_zero_dec x); split; intros; tauto.
Qed.
Theorem C54_merge_idempotent : forall d s, merge_struct (merge_struct d s) s = merge_struct d s /\ length (merge_struct d s) = length d.
Proof. intros. split; [apply merge_idem|apply merge_length]. Qed.
Example C54_ex : merge_struct [FTime 5; FId (id_new 1); FNStr (B "old"); FId (id_new 3)] [FTime 0; FId (id_new 2); FNStr []; FId (Some (mkIdptr 0 []))] =
  [FTime 5; FId (id_new 2); FNStr (B "old"); FId (id_new 3)].
Proof. reflexivity. Qed.

(** ** C85 *)
(** JSON null: encoding/json passes it to UnmarshalJSON. *)
Theorem C85_json_null_refuted : forall old v b,
  id_unjson old (B "null") = (old, false) /\ int64_unjson v (B "null") = (v, false) /\ int32_unjson v (B "null") = (v, false) /\
  id32_unjson v (B "null") = (v, false) /\ bool_unjson b (B "null") = (false, true) /\ float_unjson v (B "null") = (v, false).
Proof. intros. repeat split. Qed.

(** Bool is the only one that accepts null, as false. *)
Theorem C85_bool_partial : forall b, bool_unjson b (B "null") = (false, true).
Proof. reflexivity. Qed.

(** ** C86 *)
Theorem C86_strings : forall show s old, nullstring_scan show old (nullstring_value s) = (s, true) /\ (nullstring_value s = ANil <-> s = []) /\
  nullstring_scan show old (AStr s) = (s, true) /\ nullstring_scan show old (ABytes s) = (s, true).
Proof. intros show [|c s] old; cbn; repeat split; try congruence; discriminate. Qed.
(** Floats: every bit pattern except minus zero (which becomes NULL, then zero). *)
Theorem C86_float : forall v, float_value v <> ANil -> float_scan 0 (float_value v) = (v, true).
Proof. intros v. unfold float_value. destruct (float_zero v); [congruence|reflexivity]. Qed.
Theorem C86_float_zero : forall v, float_value v = ANil -> (v = 0 \/ v = 2 ^ 63) /\ float_scan 0 (float_value v) = (0, true).
Proof.
  intros v H. rewrite H. split; [|reflexivity]. unfold float_value in H. destruct (float_zero v) eqn:E; [|discriminate].
  unfold float_zero in E. apply orb_true_iff in E. rewrite !Z.eqb_eq in E. exact E.
Qed.
Example C86_ex : nullstring_value (B "x") = AStr (B "x") /\ float_value 4607182418800017408 = AFloat 4607182418800017408. Proof. split; reflexivity. Qed.

(** ** C88 *)
(** With cockroachdb/errors two not-found errors of different records can be
    "the same": marks compare the message only. *)
Theorem C88_is_distinguishes_refuted : exists t i t' i', (t, i) <> (t', i') /\
  crdb_is (new_not_found None t i) (new_not_found None t' i') = true.
Proof. exists (B "a: b"), (B "c"), (B "a"), (B "b: c"). split; [discriminate|reflexivity]. Qed.
(** The standard library's errors.Is: exactly when the chain holds an
    ErrorNotFound with the same table and ID. *)
Theorem C88_is_distinguishes_partial : forall e t i c, std_is e (ENotFound t i c) = true <-> exists c', In (ENotFound t i c') (chain e).
Proof.
  intros e t i c. unfold std_is. rewrite existsb_exists. split.
  - intros (x & H1 & H2). destruct x as [| t' i' c'| |]; try discriminate. apply beqb2 in H2 as [-> ->]. exists c'. exact H1.
  - intros [c' H]. exists (ENotFound t i c'). split; [exact H|]. apply beqb2. split; reflexivity.
Qed.
Example C88_ex : std_is (EStack (ENotFound (B "t") (B "1") (Some no_rows))) (ENotFound (B "t") (B "1") None) = true. Proof. reflexivity. Qed.

(** ** Exact statements of what holds of refuted properties *)
(** C45: Scan stores the integer it was given exactly when it fits. *)
Theorem C45_exact_partial : forall x n old, any_ok x -> int_of x = Some n ->
  (int64_scan old x = (n, true) <-> int64 n) /\ (int32_scan old x = (n, true) <-> int32 n) /\ (id32_scan old x = (n, true) <-> uint32 n) /\
  (forall v, id_val (fst (id_scan v x)) = n <-> uint64 n).
Proof.
  intros x n old Hx Hn. destruct (C44_modular x n old Hx Hn) as ((w1 & A1 & _ & _ & A2) & (w2 & B1 & _ & _ & B2) & (w3 & D1 & _ & _ & D2) & _).
  rewrite A1, B1, D1. split; [|split; [|split]].
  - rewrite <- A2. split; [intros E; injection E as E; exact E|intros ->; reflexivity].
  - rewrite <- B2. split; [intros E; injection E as E; exact E|intros ->; reflexivity].
  - rewrite <- D2. split; [intros E; injection E as E; exact E|intros ->; reflexivity].
  - assert (NV : forall k, 0 <= k -> id_val (id_new k) = k) by (intros k Hk; apply id_new_val; exact Hk).
    assert (UW : forall k, id_val (id_new (u64 k)) = u64 k) by (intros k; apply NV; unfold u64; pose proof (wrap_u_range 64 k ltac:(lia)); lia).
    intros v. destruct x as [|z|z|z|z|z|s|s|b|z|z|s y|z]; try discriminate; injection Hn as ->; cbn [any_ok] in Hx; cbn [id_scan fst]; unfold uint64 in *.
    all: try (rewrite UW; split; [intros <-; exact (wrap_u_range 64 n ltac:(lia))|intros H; exact (wrap_u_id 64 n H)]).
    all: rewrite NV by lia; tauto.
Qed.
Example C45_exact_ex : any_ok (AUint64 (2 ^ 63)) /\ int_of (AUint64 (2 ^ 63)) = Some (2 ^ 63) /\ ~ int64 (2 ^ 63) /\ uint64 (2 ^ 63). Proof. unfold any_ok, int64, uint64. repeat split; try lia. Qed.
(** C88: two not-found errors are "the same" for cockroachdb/errors exactly when
    their messages are. *)
Theorem C88_exact_partial : forall t i t' i', crdb_is (new_not_found None t i) (new_not_found None t' i') = true <-> t ++ B ": " ++ i = t' ++ B ": " ++ i'.
Proof.
  intros t i t' i'. unfold new_not_found, crdb_is, std_is. cbn [chain existsb]. rewrite !orb_false_r. unfold same_mark, not_found_is. rewrite orb_true_iff, andb_true_iff, !andb_true_iff, !beqb_eq. cbn [err_text]. split.
  - intros [[-> ->]|[E _]]; [reflexivity|]. apply app_inv_head in E. exact E.
  - intros E. right. split; [rewrite E; reflexivity|reflexivity].
Qed.
(** So no table or ID with a colon in it, no confusion. *)
Theorem C88_no_colon_partial : forall t i t' i', ~ In (ascii_of_nat 58) t -> ~ In (ascii_of_nat 58) t' ->
  crdb_is (new_not_found None t i) (new_not_found None t' i') = true -> t = t' /\ i = i'.
Proof.
  intros t i t' i' N N' H. apply C88_exact_partial in H. revert t' N N' H. induction t as [|c t IH]; intros [|c' t'] N N' H; cbn [app] in H.
  - split; [reflexivity|]. apply app_inv_head in H. exact H.
  - exfalso. change (B ": " ++ i) with (ascii_of_nat 58 :: ascii_of_nat 32 :: i) in H. injection H as H _. apply N'. left. symmetry. exact H.
  - exfalso. change (B ": " ++ i') with (ascii_of_nat 58 :: ascii_of_nat 32 :: i') in H. injection H as H _. apply N. left. exact H.
  - injection H as -> H. destruct (IH t' ltac:(intros X; apply N; right; exact X) ltac:(intros X; apply N'; right; exact X) H) as [-> ->]. split; reflexivity.
Qed.
Example C88_no_colon_ex : crdb_is (new_not_found None (B "orders") (B "7")) (new_not_found None (B "orders") (B "7")) = true. Proof. reflexivity. Qed.

(** C37 exactly: for the types without a zero-setting case, NULL changes nothing. *)
Theorem C37_kept_partial : forall v a b c d f, id_scan v ANil = (v, true) /\ int64_scan a ANil = (a, true) /\ int32_scan b ANil = (b, true) /\
  id32_scan c ANil = (c, true) /\ bool_scan d ANil = (d, true) /\ float_scan f ANil = (f, true).
Proof. intros. repeat split; reflexivity. Qed.

(** C53: what IsNotFoundError answers, in full: nil is not; an error is exactly if
    the chain of its causes has sql.ErrNoRows or an ErrorNotFound, or its text
    contains the text of sql.ErrNoRows. *)
Theorem C53_is_not_found_iff : is_not_found None = false /\
  forall x, is_not_found (Some x) = true <->
    In no_rows (chain x) \/ (exists t i c, In (ENotFound t i c) (chain x)) \/ exists a b, err_text x = a ++ B "no rows in result set" ++ b.
Proof.
  split; [reflexivity|]. intros x. unfold is_not_found. rewrite !Bool.orb_true_iff.
  assert (A : is_no_rows x = true <-> In no_rows (chain x)).
  { unfold is_no_rows. rewrite existsb_exists. split.
    - intros (c & Hc & E). destruct c as [[|ty] m| | |]; try discriminate. apply beqb_eq in E. subst m. exact Hc.
    - intros H. exists no_rows. split; [exact H|reflexivity]. }
  assert (C : as_not_found x = true <-> exists t i c, In (ENotFound t i c) (chain x)).
  { unfold as_not_found. rewrite existsb_exists. split.
    - intros (c & Hc & E). destruct c as [|t i c| |]; try discriminate. eauto.
    - intros (t & i & c & H). exists (ENotFound t i c). split; [exact H|reflexivity]. }
  rewrite A, C, contains_spec. tauto.
Qed.

(** ** C177 *)
(** NULLString.Scan accepts every value of the driver and NULL; integers arrive as
    their decimal digits (a minus sign in front of negative ones), Booleans as
    true and false, texts unchanged; only NULL and empty texts give the empty
    string. *)
Theorem C177_integers : forall show old n x, x = AInt n \/ x = AInt64 n ->
  exists s, nullstring_scan show old x = (s, true) /\ int_text s n /\ (0 <= n -> canonical s n) /\ (n < 0 -> exists d, s = ch 45 :: d /\ canonical d (- n)).
Proof.
  intros show old n x Hx. exists (fmt_int 10 n). split; [destruct Hx as [-> | ->]; reflexivity|]. unfold fmt_int. destruct (Z.ltb_spec n 0) as [H|H].
  - pose proof (fmt_uint_canonical (- n) ltac:(lia)) as C. destruct (fmt_uint_dec (- n) ltac:(lia)) as [D V]. split; [|split; [lia|intros _; eexists; split; [reflexivity|exact C]]].
    right. left. exists (fmt_uint 10 (- n)). split; [reflexivity|split; [exact D|lia]].
  - pose proof (fmt_uint_canonical n H) as C. destruct (fmt_uint_dec n H) as [D V]. split; [left; split; [exact D|lia]|]. split; [intros _; exact C|lia].
Qed.
Theorem C177_unsigned : forall show old n x, 0 <= n -> x = AUint n \/ x = AUint64 n \/ x = AUint32 n ->
  exists s, nullstring_scan show old x = (s, true) /\ canonical s n.
Proof. intros show old n x H Hx. exists (fmt_uint 10 n). split; [destruct Hx as [->|[->| ->]]; reflexivity|apply fmt_uint_canonical; exact H]. Qed.
Theorem C177_other : forall show old, (forall b, nullstring_scan show old (ABool b) = (if b then B "true" else B "false", true)) /\
  (forall s, nullstring_scan show old (AStr s) = (s, true) /\ nullstring_scan show old (ABytes s) = (s, true)) /\
  nullstring_scan show old ANil = ([], true) /\ (forall x, snd (nullstring_scan show old x) = true).
Proof. intros show old. split; [intros []; reflexivity|]. split; [split; reflexivity|]. split; [reflexivity|]. intros []; reflexivity. Qed.
Example C177_ex : forall show, nullstring_scan show (B "old") (AInt64 (-120)) = (B "-120", true) /\ nullstring_scan show (B "old") (AUint64 (2 ^ 64 - 1)) = (B "18446744073709551615", true).
Proof. split; vm_compute; reflexivity. Qed.

(** What is stored as NULL: exactly the two zeroes; every other pattern, NaN
    included, is stored as itself, and all but minus zero come back. *)
Theorem C86_float_null_iff : forall v, (float_value v = ANil <-> v = 0 \/ v = 2 ^ 63) /\ (float_value v <> ANil -> float_value v = AFloat v) /\
  (v <> 2 ^ 63 -> float_scan 0 (float_value v) = (v, true)).
Proof.
  intros v. assert (E : float_zero v = true <-> v = 0 \/ v = 2 ^ 63) by (unfold float_zero; rewrite orb_true_iff, !Z.eqb_eq; reflexivity).
  unfold float_value. destruct (float_zero v); split.
  - split; [intros _; apply E; reflexivity|reflexivity].
  - split; [congruence|]. intros N. destruct E as [E _]. destruct (E eq_refl) as [->|]; [reflexivity|contradiction].
  - split; [discriminate|]. intros H. apply E in H. discriminate.
  - split; reflexivity.
Qed.
Example C86_float_null_iff_ex : float_value 0 = ANil /\ float_value (2 ^ 63) = ANil /\ float_value 1 = AFloat 1. Proof. split; [|split]; reflexivity. Qed.


(** ** C186: which driver values Scan takes *)
Theorem C186_integers : forall x,
  (forall v, snd (id_scan v x) = true <-> x = ANil \/ int_of x <> None) /\ (forall v, snd (int64_scan v x) = true <-> x = ANil \/ int_of x <> None) /\
  (forall v, snd (int32_scan v x) = true <-> x = ANil \/ int_of x <> None) /\ (forall v, snd (id32_scan v x) = true <-> x = ANil \/ int_of x <> None) /\
  (forall v, snd (bool_scan v x) = true <-> x = ANil \/ int_of x <> None \/ exists b, x = ABool b).
Proof.
  intros x. split; [|split; [|split; [|split]]]; intros v; destruct x; cbn; split; intros H; try discriminate; try reflexivity; try (left; reflexivity); try (right; discriminate); try (right; left; discriminate); try (right; right; eexists; reflexivity);
    repeat match goal with H : _ \/ _ |- _ => destruct H as [H|H] | H : exists _, _ |- _ => destruct H as [? H] end; try discriminate; congruence.
Qed.
Theorem C186_texts : forall x,
  (forall v, snd (uuid_scan v x) = true <-> x = ANil \/ exists s, x = ABytes s \/ x = AStr s) /\
  (forall v, snd (ida_scan v x) = true -> x = ANil \/ exists s, x = ABytes s \/ x = AStr s).
Proof.
  intros x. split; intros v; destruct x as [|z|z|z|z|z|s|s|b|z|z|s y|z]; cbn; try (split; intros H); try intros H; try discriminate; try reflexivity; try (left; reflexivity); try (right; exists s; auto; fail).
  all: try (destruct H as [H|[t [H|H]]]; discriminate).
  destruct (length s =? 16)%nat; reflexivity.
Qed.
(** A refused value leaves the destination as it was. *)
Theorem C186_refused : forall x,
  (forall v, snd (id_scan v x) = false -> fst (id_scan v x) = v) /\ (forall v, snd (int64_scan v x) = false -> fst (int64_scan v x) = v) /\ (forall v, snd (int32_scan v x) = false -> fst (int32_scan v x) = v) /\
  (forall v, snd (id32_scan v x) = false -> fst (id32_scan v x) = v) /\ (forall v, snd (bool_scan v x) = false -> fst (bool_scan v x) = v) /\ (forall v, snd (uuid_scan v x) = false -> fst (uuid_scan v x) = v).
Proof.
  intros x. repeat split; intros v H; destruct x; cbn in *; try discriminate; try reflexivity. destruct (length s =? 16)%nat; discriminate.
Qed.
Example C186_ex : map (fun x => snd (bool_scan false x)) [ANil; AInt 1; AInt64 (-1); ABool true; AStr (B "true"); AFloat 1; AUint32 1] = [true; true; true; true; false; false; false] /\
  map (fun x => snd (id_scan None x)) [AUint 1; AStr (B "1"); ABytes (B "1"); AFloat 1] = [true; false; false; false].
Proof. vm_compute. split; reflexivity. Qed.

(** ** Assumptions *)
Print Assumptions C37_null_refuted.
Print Assumptions C37_null_partial.
Print Assumptions C43_int64_json.
Print Assumptions C43_int32_json.
Print Assumptions C43_id32_json.
Print Assumptions C43_bool_json.
Print Assumptions C43_int64_accepts.
Print Assumptions C43_int32_accepts.
Print Assumptions C43_id32_accepts.
Print Assumptions C43_bool_rejects_refuted.
Print Assumptions C43_bool_exact_partial.
Print Assumptions C43_int64_quoted.
Print Assumptions C44_int64_value_scan.
Print Assumptions C44_int32_value_scan.
Print Assumptions C44_id32_value_scan.
Print Assumptions C44_bool_value_scan.
Print Assumptions C44_modular.
Print Assumptions C45_out_of_range_refuted.
Print Assumptions C45_in_range_partial.
Print Assumptions C46_uuid_bytes.
Print Assumptions C46_uuid_injective.
Print Assumptions C46_uuid_text.
Print Assumptions C47_uuid_length_refuted.
Print Assumptions C47_uuid_length_partial.
Print Assumptions C48_merge.
Print Assumptions C48_merge_ok.
Print Assumptions C48_merge_idempotent.
Print Assumptions C48_merge_associative.
Print Assumptions C48_argument_unchanged.
Print Assumptions C49_ordered.
Print Assumptions C49_lossless.
Print Assumptions C53_classification.
Print Assumptions C53_nil.
Print Assumptions C53_original_reachable.
Print Assumptions C53_survives_wrapping.
Print Assumptions C53_is_by_table_and_id.
Print Assumptions C54_merge_field.
Print Assumptions C54_merge_idempotent.
Print Assumptions C85_json_null_refuted.
Print Assumptions C85_bool_partial.
Print Assumptions C86_strings.
Print Assumptions C86_float.
Print Assumptions C86_float_zero.
Print Assumptions C88_is_distinguishes_refuted.
Print Assumptions C88_is_distinguishes_partial.
Print Assumptions C45_exact_partial.
Print Assumptions C88_exact_partial.
Print Assumptions C88_no_colon_partial.
Print Assumptions C37_kept_partial.
Print Assumptions C53_is_not_found_iff.
Print Assumptions C177_integers.
Print Assumptions C177_unsigned.
Print Assumptions C177_other.
Print Assumptions C86_float_null_iff.
Print Assumptions C186_integers.
Print Assumptions C186_texts.
Print Assumptions C186_refused.
