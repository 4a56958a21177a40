(** Property theorems C32-C36, C38-C42, C81-C84: IDs and ID arrays.
    [is_dec], [dec_val], [canonical] and [dedup] are defined in IdSpec. *)
From Verif Require Import GoBase GoBaseFacts IdModel IdSpec IdProofs.
From Coq Require Import Sorted Permutation.
Open Scope Z_scope.

Definition q (s : bytes) : bytes := [dquote] ++ s ++ [dquote].

(** ** C32 *)
Theorem C32_parse_uint : forall s v, go_parse_uint s = Some v <-> is_dec s /\ v = dec_val s /\ v < 2 ^ 64.
Proof. intros s v. apply parse_uint_iff. lia. Qed.
Theorem C32_inverse : forall n, uint64 n -> go_parse_uint (id_string_of n) = Some n /\ canonical (id_string_of n) n.
Proof. intros n [H1 H2]. split; [apply parse_uint_fmt; lia|apply fmt_uint_canonical; exact H1]. Qed.
(** The canonical text is the only one: IDString is its inverse. *)
Theorem C32_canonical_text : forall s n, canonical s n -> s = id_string_of n.
Proof. exact canonical_unique. Qed.
(** QuotedIDString: the same text between double quotes. *)
Theorem C32_quoted : forall n, uint64 n -> exists t, quoted_id_string n = dquote :: t ++ [dquote] /\ canonical t n /\ go_parse_uint t = Some n.
Proof. intros n [H1 H2]. exists (fmt_uint 10 n). split; [reflexivity|]. split; [apply fmt_uint_canonical; exact H1|apply parse_uint_fmt; lia]. Qed.
Example C32_ex : go_parse_uint (B "18446744073709551615") = Some (2 ^ 64 - 1) /\ go_parse_uint (B "18446744073709551616") = None /\
  go_parse_uint (B "+1") = None /\ go_parse_uint (B "1_0") = None /\ go_parse_uint [] = None /\ id_string_of (2 ^ 64 - 1) = B "18446744073709551615".
Proof. vm_compute. repeat split; reflexivity. Qed.

(** ** C33 *)
Theorem C33_parse_id : forall s, let '(v, ok) := parse_id s in
  (ok = true <-> is_dec s /\ 1 <= dec_val s < 2 ^ 64) /\
  (ok = true -> id_val v = dec_val s /\ id_valid v = true /\ canonical (fst (id_string v)) (dec_val s)) /\
  (ok = false -> id_valid v = false /\ id_val v = 0).
Proof.
  intros s. unfold parse_id, parse_id_order. pose proof (id_set_spec None s) as H. destruct (id_set None s) as [v ok]. destruct H as (H1 & H2 & H3).
  split; [exact H1|]. split.
  - intros E. rewrite (H2 E). apply H1 in E as [E1 E2]. cbn. unfold id_valid. cbn. destruct (dec_val s =? 0) eqn:Ez; [apply Z.eqb_eq in Ez; lia|].
    split; [reflexivity|split; [reflexivity|]]. apply fmt_uint_canonical. lia.
  - intros E. rewrite (H3 E). split; reflexivity.
Qed.
Theorem C33_try_must_agree : forall s, let '(v, ok) := parse_id s in
  try_parse_id s = v /\ must_id s = if ok then Some v else None.
Proof. intros s. unfold parse_id, parse_id_order, try_parse_id, must_id. destruct (id_set None s) as [v [|]]; split; reflexivity. Qed.
Example C33_ex : parse_id (B "0042") = (Some (mkIdptr 42 []), true) /\ parse_id (B "00") = (None, false) /\ must_id (B "x") = None.
Proof. vm_compute. repeat split; reflexivity. Qed.

(** ** C34 *)
(** For every ID any program can hold ([reachable_id]: any sequence of the
    API's operations, copies included), into any destination. *)
Theorem C34_json_value : forall v dst, reachable_id v ->
  (let '(w, ok) := id_unjson dst (id_json v) in ok = true /\ id_val w = id_val v) /\
  (let '(w, ok) := id_unjson dst (q (id_json v)) in ok = true /\ id_val w = id_val v).
Proof.
  intros v dst H. apply reachable_ok in H. unfold id_ok, uint64 in H. unfold id_json, q. split.
  - destruct (unjson_digits dst (id_val v) _ _ H (trim_none _ (fmt_unquoted (id_val v) (proj1 H))) eq_refl) as (A & B' & _).
    destruct (id_unjson _ _). cbn in *. split; assumption.
  - destruct (unjson_digits dst (id_val v) _ _ H (trim_quoted _ (fmt_unquoted (id_val v) (proj1 H))) eq_refl) as (A & B' & _).
    destruct (id_unjson _ _). cbn in *. split; assumption.
Qed.
(** What is accepted: after removing quotes, nothing or a decimal below 2^64;
    otherwise the destination keeps its value. *)
Theorem C34_json_accepts : forall dst data, let '(w, ok) := id_unjson dst data in let s := trim [dquote] data in
  (ok = true <-> s = [] \/ (is_dec s /\ dec_val s < 2 ^ 64)) /\
  (ok = true -> id_val w = if is_empty s then 0 else dec_val s) /\ (ok = false -> w = dst).
Proof. intros dst data. pose proof (unjson_inv dst data) as H. destruct (id_unjson dst data) as [w ok]. cbv zeta in *. destruct H as (H1 & H2 & H3). auto. Qed.
(** The text: equal for IDs not decoded from JSON ... *)
Theorem C34_json_string_partial : forall v dst, reachable_plain v ->
  fst (id_string (fst (id_unjson dst (id_json v)))) = fst (id_string v).
Proof.
  intros v dst H. assert (Hr : reachable_id v) by (destruct H as (k & l & x & A & _ & C); exists k, l, x; auto).
  apply reachable_ok in Hr. unfold id_ok, uint64 in Hr. apply reachable_plain_canon in H. rewrite (plain_string v H).
  apply (unjson_digits dst (id_val v) _ _ Hr (trim_none _ (fmt_unquoted (id_val v) (proj1 Hr))) eq_refl).
Qed.
(** ... but an ID decoded from the number 007 prints as 007 and comes back as 7. *)
Definition c34_prog := [OpUnJson 0 (B "007")].
Theorem C34_json_string_refuted : exists v, reachable_id v /\
  fst (id_string (fst (id_unjson None (id_json v)))) <> fst (id_string v).
Proof.
  exists (iv_content (iv_run (iv_init 1) c34_prog) 0). split.
  - exists 1%nat, c34_prog, O. split; [repeat constructor|reflexivity].
  - vm_compute. discriminate.
Qed.
Example C34_ex : reachable_plain (id_new (2 ^ 64 - 1)) /\ id_json (id_new (2 ^ 64 - 1)) = B "18446744073709551615".
Proof.
  split; [|reflexivity]. exists 1%nat, [OpNew 0 (2 ^ 64 - 1)], O.
  split; [apply Forall_cons; [cbn; unfold uint64; lia|apply Forall_nil]|split; [repeat constructor|reflexivity]].
Qed.

(** ** C35 *)
Theorem C35_canonical_refuted : exists data v, id_unjson None data = (v, true) /\ id_valid v = true /\
  ~ canonical (fst (id_string v)) (id_val v) /\ fst (id_string v) <> fst (id_string (id_new (id_val v))).
Proof.
  exists (B "007"), (Some (mkIdptr 7 (B "007"))). split; [reflexivity|split; [reflexivity|split; [|vm_compute; discriminate]]].
  intros H. apply canonical_unique in H. vm_compute in H. discriminate.
Qed.
(** Canonical input gives canonical text. *)
Theorem C35_canonical_partial : forall n dst, 0 < n < 2 ^ 64 -> forall data, trim [dquote] data = id_string_of n ->
  canonical (fst (id_string (fst (id_unjson dst data)))) (id_val (fst (id_unjson dst data))).
Proof.
  intros n dst Hn data Hd. destruct (unjson_digits dst n _ data ltac:(lia) Hd eq_refl) as (A & _ & C). rewrite A, C.
  destruct (n =? 0) eqn:E; [apply Z.eqb_eq in E; lia|]. apply fmt_uint_canonical. lia.
Qed.
Example C35_ex : trim [dquote] (q (B "12")) = id_string_of 12. Proof. reflexivity. Qed.

(** ** C36 *)
Theorem C36_value_scan : forall v, reachable_id v ->
  id_scan None (id_value v) = (id_new (id_val v), true) /\ id_val (id_new (id_val v)) = id_val v /\
  (id_value v = ANil <-> id_val v = 0) /\
  match id_value v with ANil => True | AInt64 z => int64 z | _ => False end.
Proof.
  intros v H. apply reachable_ok in H. pose proof H as [H0 H1]. split; [apply value_scan; exact H|split; [apply id_new_val; exact H0|]].
  unfold id_value. destruct (id_val v =? 0) eqn:E; [apply Z.eqb_eq in E|apply Z.eqb_neq in E].
  - split; [tauto|exact I].
  - split; [split; [discriminate|contradiction]|]. exact (wrap_s_range 64 _ ltac:(lia)).
Qed.
Example C36_ex : id_value (id_new (2 ^ 64 - 1)) = AInt64 (-1) /\ id_scan None (AInt64 (-1)) = (id_new (2 ^ 64 - 1), true).
Proof. vm_compute. split; reflexivity. Qed.

(** ** C38 *)
Definition c38_state := iv_run (iv_init 2) [OpNew 0 1; OpCopy 1 0].
Theorem C38_copies_refuted : exists o, op_target o = 0%nat /\ iv_uint64 c38_state 1 = 1 /\ iv_uint64 (iv_step c38_state o) 1 <> 1.
Proof. exists (OpSet 0 (B "2")). vm_compute. repeat split; discriminate. Qed.
(** Every operation except Set and Reset leaves all other variables alone,
    in every reachable state. *)
Theorem C38_copies_partial : forall k l l2 y, Forall quiet l2 -> Forall (fun o => op_target o <> y) l2 ->
  iv_uint64 (iv_run (iv_init k) (l ++ l2)) y = iv_uint64 (iv_run (iv_init k) l) y.
Proof.
  intros k l l2 y Hq Ht. unfold iv_run. rewrite fold_left_app. apply (quiet_run l2 _ y); try assumption. apply run_wf, init_wf.
Qed.
(** And in a program that never copies an ID, so do Set and Reset. *)
Theorem C38_no_copies_partial : forall k l o y, Forall no_copy (l ++ [o]) -> op_target o <> y ->
  iv_uint64 (iv_run (iv_init k) (l ++ [o])) y = iv_uint64 (iv_run (iv_init k) l) y.
Proof.
  intros k l o y Hc Ht. apply Forall_app in Hc as [Hc Ho]. inversion Ho; subst. unfold iv_run. rewrite fold_left_app. cbn [fold_left].
  fold (iv_run (iv_init k) l). apply apart_step; try assumption; [apply run_wf, init_wf|apply run_apart; [apply init_wf|apply init_apart|assumption]].
Qed.
Example C38_ex : let l := [OpNew 0 1; OpCopy 1 0] in let l2 := [OpScan 0 (AInt64 7); OpUnJson 0 (B "9"); OpString 0] in
  Forall quiet l2 /\ iv_uint64 (iv_run (iv_init 2) (l ++ l2)) 0 = 9 /\ iv_uint64 (iv_run (iv_init 2) (l ++ l2)) 1 = 1.
Proof. split; [repeat constructor|split; reflexivity]. Qed.

(** ** C39 *)
Theorem C39_add : forall n i,
  (In (id_val i) (ida_list n) -> ida_add n i = n) /\ (~ In (id_val i) (ida_list n) -> ida_add n i = n ++ [i]) /\
  (NoDup (ida_list n) -> NoDup (ida_list (ida_add n i))) /\
  (forall z, In z (ida_list (ida_add n i)) <-> In z (ida_list n) \/ z = id_val i).
Proof.
  intros n i. split; [|split; [|split; [apply add_nodup|intros; apply add_in]]]; intros H; unfold ida_add.
  - rewrite (proj2 (contains_in n i) H). reflexivity.
  - destruct (ida_contains n i) eqn:E; [|reflexivity]. apply contains_in in E. contradiction.
Qed.
Theorem C39_concat : forall n o,
  ida_list (ida_concat n o) = (if (length o <? length n)%nat then ida_list o ++ dedup (ida_list n) (ida_list o)
                               else ida_list n ++ dedup (ida_list o) (ida_list n)) /\
  (NoDup (ida_list n) -> NoDup (ida_list o) -> NoDup (ida_list (ida_concat n o))) /\
  (forall z, In z (ida_list (ida_concat n o)) <-> In z (ida_list n) \/ In z (ida_list o)).
Proof.
  intros n o. unfold ida_concat. destruct (length o <? length n)%nat; (split; [apply add_all_list|split; [intros; apply add_all_nodup; assumption|]]);
    intros z; rewrite add_all_in; tauto.
Qed.
Theorem C39_new : forall l, Forall uint64 l -> ida_list (new_id_array l) = dedup l [] /\ NoDup (ida_list (new_id_array l)) /\
  (forall z, In z (ida_list (new_id_array l)) <-> In z l).
Proof.
  intros l H. split; [apply new_id_array_list; exact H|]. rewrite (new_id_array_all l H). split; [apply add_all_nodup; constructor|].
  intros z. rewrite add_all_in, map_val_new by assumption. cbn. tauto.
Qed.
Theorem C39_contains_overlaps : forall n o i,
  (ida_contains n i = true <-> In (id_val i) (ida_list n)) /\
  (ida_overlaps n o = true <-> exists z, In z (ida_list n) /\ In z (ida_list o)).
Proof.
  intros n o i. split; [apply contains_in|]. unfold ida_overlaps. rewrite existsb_exists. split.
  - intros (v & H1 & H2). apply contains_in in H2. exists (id_val v). split; [apply in_map; exact H1|exact H2].
  - intros (z & H1 & H2). unfold ida_list in H1. apply in_map_iff in H1 as (v & <- & H1). exists v. split; [exact H1|]. apply contains_in. exact H2.
Qed.
Example C39_ex : ida_list (new_id_array [3; 1; 3; 2; 1]) = [3; 1; 2] /\
  ida_list (ida_concat (new_id_array [3; 1; 2]) (new_id_array [2; 9])) = [2; 9; 3; 1].
Proof. vm_compute. split; reflexivity. Qed.

(** ** C40 *)
(** [a]: the backing arrays of the program; slices share arrays. *)
Definition c40_l := sl_new go_grow [] [1; 2; 3].
Definition c40_x := sl_add go_grow (fst c40_l) (snd c40_l) 4.
Definition c40_y := sl_add go_grow (fst c40_x) (snd c40_l) 5.
(** l := NewIDArray({1,2,3}); x := l.Add(4); y := l.Add(5): now x is {1,2,3,5}. *)
Theorem C40_independent_refuted : sl_elems (fst c40_x) (snd c40_x) = [1; 2; 3; 4] /\ sl_elems (fst c40_y) (snd c40_x) = [1; 2; 3; 5].
Proof. vm_compute. split; reflexivity. Qed.
(** For every growth policy of append: Add returns the right list and changes
    neither its receiver nor any slice that is not longer than it or has another
    backing array. *)
Theorem C40_add_partial : forall g a s x, (forall n, (n < g n)%nat) -> sl_wf a s -> let '(a', r) := sl_add g a s x in
  sl_elems a' r = (if in_dec Z.eq_dec x (sl_elems a s) then sl_elems a s else sl_elems a s ++ [x]) /\ sl_elems a' s = sl_elems a s /\
  (forall t, sl_wf a t -> (sl_len t <= sl_len s)%nat \/ sl_disjoint s t -> sl_elems a' t = sl_elems a t).
Proof.
  intros g a s x Hg Hs. pose proof (sl_add_spec g a s x Hs Hg) as H. destruct (sl_add g a s x) as [a' r]. destruct H as (_ & H1 & H2).
  split; [exact H1|split; [apply (H2 s Hs); left; lia|]]. intros t Ht Hd. apply (H2 t Ht Hd).
Qed.
(** Concat of lists with different backing arrays changes neither operand. *)
Theorem C40_concat_partial : forall g a s o, (forall n, (n < g n)%nat) -> sl_wf a s -> sl_wf a o -> sl_disjoint s o ->
  let '(a', r) := sl_concat g a s o in
  sl_elems a' r = (if (sl_len o <? sl_len s)%nat then sl_elems a o ++ dedup (sl_elems a s) (sl_elems a o)
                   else sl_elems a s ++ dedup (sl_elems a o) (sl_elems a s)) /\
  sl_elems a' s = sl_elems a s /\ sl_elems a' o = sl_elems a o.
Proof. exact sl_concat_spec. Qed.
Example C40_ex : (forall n, (n < go_grow n)%nat) /\ sl_wf (fst c40_l) (snd c40_l) /\ sl_elems (fst c40_l) (snd c40_l) = [1; 2; 3].
Proof. split; [intros n; unfold go_grow; lia|split; [vm_compute; lia|reflexivity]]. Qed.

(** ** C41 *)
Theorem C41_value_scan : forall n old, Forall reachable_id n ->
  let '(m, ok) := ida_scan old (ida_value n) in ok = true /\ ida_list m = ida_list n /\ (n = [] -> m = [] /\ ida_value n = ANil).
Proof.
  intros n old H. assert (G : Forall id_ok n) by (eapply Forall_impl; [|exact H]; exact reachable_ok).
  pose proof (ida_roundtrip n old G) as R. destruct (ida_scan old (ida_value n)) as [m ok]. destruct R as (R1 & R2 & R3).
  split; [exact R1|split; [exact R2|]]. intros E. split; [apply R3, E|subst n; reflexivity].
Qed.
Example C41_ex : ida_value [id_new 5; id_new (2 ^ 64 - 1); None] = AStr (B "{5,-1,0}") /\
  ida_list (fst (ida_scan [] (AStr (B "{5,-1,0}")))) = [5; 2 ^ 64 - 1; 0].
Proof. vm_compute. split; reflexivity. Qed.

(** ** C42 *)
Theorem C42_sort : forall n, Permutation n (ida_sort n) /\ StronglySorted Z.le (ida_list (ida_sort n)).
Proof.
  intros n. unfold ida_sort. destruct (length n <? 2)%nat eqn:E; [|split; [apply sort_perm|apply sort_sorted]].
  split; [reflexivity|]. apply Nat.ltb_lt in E. destruct n as [|i [|j n]]; cbn in *; [constructor|repeat constructor|lia].
Qed.
Example C42_ex : ida_list (ida_sort (new_id_array [3; 2 ^ 63; 1])) = [1; 3; 2 ^ 63]. Proof. reflexivity. Qed.

(** ** C81 *)
(** [parse_id_order early]: whether the returned variable is read before or
    after the call that sets it; the Go specification allows both. *)
Theorem C81_parse_order_refuted : ~ forall s early, snd (parse_id_order early s) = true ->
  id_val (fst (parse_id_order early s)) = dec_val s.
Proof. intros H. specialize (H (B "5") true eq_refl). vm_compute in H. discriminate. Qed.
(** Whether it fails does not depend on the order, and with the order of the gc
    compiler the parsed ID is returned. *)
Theorem C81_parse_order_partial : forall s, snd (parse_id_order true s) = snd (parse_id_order false s) /\
  (snd (parse_id_order false s) = true -> id_val (fst (parse_id_order false s)) = dec_val s).
Proof.
  intros s. split; [unfold parse_id_order; destruct (id_set None s); reflexivity|]. pose proof (C33_parse_id s) as H.
  unfold parse_id in H. destruct (parse_id_order false s) as [v ok]. cbn. intros E. apply H, E.
Qed.
Example C81_ex : parse_id_order false (B "5") = (id_new 5, true). Proof. reflexivity. Qed.

(** ** C82 *)
(** The zero ID and a reset ID are both invalid and equal by UInt64, but their
    QuotedString differ. *)
Theorem C82_equal_text_refuted : ~ forall v w, reachable_plain v -> reachable_plain w -> id_val v = id_val w -> id_quoted v = id_quoted w.
Proof.
  intros H. assert (X : id_quoted None = id_quoted (Some (mkIdptr 0 []))); [|vm_compute in X; discriminate].
  apply H; [exists 1%nat, [], O|exists 1%nat, [OpReset 0], O|reflexivity]; (split; [repeat constructor|split; [repeat constructor|reflexivity]]).
Qed.
(** For IDs not decoded from JSON, String and UnderscoreString are functions of
    the number, and so is QuotedString for valid IDs. *)
Theorem C82_equal_text_partial : forall v w, reachable_plain v -> reachable_plain w -> id_val v = id_val w ->
  fst (id_string v) = fst (id_string w) /\ id_underscore v = id_underscore w /\
  (id_valid v = true -> id_quoted v = q (id_string_of (id_val v)) /\ id_quoted w = id_quoted v).
Proof.
  intros v w Hv Hw E. apply reachable_plain_canon in Hv, Hw.
  assert (S : fst (id_string v) = fst (id_string w)) by (rewrite (plain_string v Hv), (plain_string w Hw), E; reflexivity).
  split; [exact S|split; [unfold id_underscore; rewrite S; reflexivity|]].
  intros Hval. unfold id_valid in Hval. apply Bool.negb_true_iff in Hval. pose proof (plain_string v Hv) as Pv. rewrite Hval in Pv.
  apply Z.eqb_neq in Hval. destruct v as [p|]; [|cbn in Hval; congruence]. destruct w as [p'|]; [|cbn in E, Hval; congruence].
  unfold id_quoted. rewrite <- S, Pv. split; reflexivity.
Qed.

(** What they print. *)
Theorem C82_text_partial : forall v, reachable_plain v ->
  (id_valid v = true -> fst (id_string v) = id_string_of (id_val v) /\ id_underscore v = B "_" ++ id_string_of (id_val v)) /\
  (id_valid v = false -> fst (id_string v) = [] /\ id_underscore v = []).
Proof.
  intros v H. pose proof (reachable_plain_canon v H) as Hc. pose proof (plain_string v Hc) as P. unfold id_valid, id_underscore.
  destruct (id_val v =? 0) eqn:E; cbn [negb]; split; intros X; try discriminate; rewrite P; (split; [reflexivity|]); [reflexivity|].
  apply Z.eqb_neq in E. assert (Hn : 0 <= id_val v).
  { destruct H as (k & ops & i & A & Bq & C). pose proof (reachable_ok v) as R. unfold id_ok, uint64 in R. apply R. exists k, ops, i. split; [assumption|]. exact C. }
  pose proof (fmt_uint_nonempty 10 (id_val v) ltac:(lia) Hn). unfold id_string_of. destruct (fmt_uint 10 (id_val v)); [congruence|reflexivity].
Qed.

(** ** C83 *)
Theorem C83_strings_back : forall n, Forall reachable_plain n -> NoDup (ida_list n) -> ~ In 0 (ida_list n) ->
  ida_list (ida_from_strings (ida_strings n)) = ida_list n.
Proof.
  intros n H Hd H0. rewrite from_strings_list.
  assert (G : flat_map (fun s => match parse_id s with (v, true) => [id_val v] | _ => [] end) (ida_strings n) = ida_list n).
  { clear Hd. induction H as [|v n Hv Hn IH]; [reflexivity|]. cbn [ida_strings map flat_map ida_list]. fold (ida_strings n) (ida_list n).
    rewrite IH by (intros X; apply H0; right; exact X).
    assert (Hr : reachable_id v) by (destruct Hv as (k & l & x & A & _ & C); exists k, l, x; auto). apply reachable_ok in Hr. unfold id_ok, uint64 in Hr.
    rewrite (plain_string v (reachable_plain_canon v Hv)). destruct (id_val v =? 0) eqn:E; [apply Z.eqb_eq in E; exfalso; apply H0; left; exact E|apply Z.eqb_neq in E].
    destruct (fmt_uint_dec (id_val v) ltac:(lia)) as [D1 D2].
    pose proof (C33_parse_id (fmt_uint 10 (id_val v))) as P. destruct (parse_id (fmt_uint 10 (id_val v))) as [u [|]].
    - destruct P as (_ & P & _). destruct (P eq_refl) as (P1 & _). rewrite P1, D2. reflexivity.
    - destruct P as (P & _). destruct P as [_ P]. rewrite D2 in P. specialize (P ltac:(split; [exact D1|lia])). discriminate. }
  rewrite G. clear G H H0. assert (X : forall l s, NoDup l -> (forall z, In z l -> ~ In z s) -> dedup l s = l).
  { induction l as [|x l IH]; intros s Hl Hs; [reflexivity|]. cbn. destruct (in_dec Z.eq_dec x s) as [i|i]; [destruct (Hs x (or_introl eq_refl) i)|].
    inversion Hl; subst. f_equal. apply IH; [assumption|]. intros z Hz [<-|Hz2]; [contradiction|]. exact (Hs z (or_intror Hz) Hz2). }
  apply X; [exact Hd|intros z _ []].
Qed.
Example C83_ex : ida_strings (new_id_array [7; 2 ^ 64 - 1]) = [B "7"; B "18446744073709551615"] /\
  ida_list (ida_from_strings [B "7"; B ""; B "x"; B "0"; B "7"; B "18446744073709551615"]) = [7; 2 ^ 64 - 1].
Proof. vm_compute. split; reflexivity. Qed.

(** String() is Strings() separated by commas: splitting it gives the texts back. *)
Theorem C83_string : forall n, Forall reachable_plain n -> n <> [] -> split_on (ascii_of_nat 44) (ida_string n) = ida_strings n.
Proof.
  intros n H Hn. unfold ida_string. change (B ",") with [ascii_of_nat 44]. apply split_join.
  - destruct n; [congruence|discriminate].
  - unfold ida_strings. apply Forall_forall. intros w Hw. apply in_map_iff in Hw as (v & <- & Hv). rewrite Forall_forall in H. specialize (H v Hv).
    assert (Hr : reachable_id v) by (destruct H as (k & l & x & A & _ & C); exists k, l, x; auto). apply reachable_ok in Hr. unfold id_ok, uint64 in Hr. rewrite (plain_string v (reachable_plain_canon v H)). destruct (id_val v =? 0); [intros []|].
    destruct (fmt_uint_dec (id_val v) ltac:(lia)) as [[_ D] _]. intros Hc. rewrite Forall_forall in D. specialize (D _ Hc). vm_compute in D. lia.
Qed.
(** Int64Array, of an IDArray or of a list of numbers, holds the same 64 bits:
    converting back gives the numbers, and every element is an int64. *)
Theorem C83_int64 : forall l n, Forall (fun z => 0 <= z < 2 ^ 64) l -> ida_list n = l ->
  ida_int64s n = int64_array l /\ map u64 (int64_array l) = l /\ Forall (fun z => - 2 ^ 63 <= z < 2 ^ 63) (int64_array l).
Proof.
  intros l n H E. split; [|split].
  - subst l. unfold ida_int64s, int64_array, ida_list. rewrite map_map. reflexivity.
  - unfold int64_array. rewrite map_map. rewrite <- (map_id l) at 2. apply map_ext_in. intros z Hz. rewrite Forall_forall in H. specialize (H z Hz).
    unfold u64, i64, wrap_u, wrap_s. change (2 ^ (64 - 1)) with (2 ^ 63). rewrite Zminus_mod_idemp_l. replace (z + 2 ^ 63 - 2 ^ 63) with z by lia. apply Z.mod_small. exact H.
  - apply Forall_forall. intros z Hz. apply in_map_iff in Hz as (x & <- & _). exact (wrap_s_range 64 x ltac:(lia)).
Qed.
Example C83_string_ex : ida_string (new_id_array [7; 2 ^ 64 - 1]) = B "7,18446744073709551615" /\ int64_array [7; 2 ^ 64 - 1] = [7; -1].
Proof. vm_compute. split; reflexivity. Qed.

(** ** C84 *)
Theorem C84_yaml : forall v dst, reachable_id v ->
  let '(w, ok) := id_unyaml dst (Some (id_yaml v)) in ok = true /\ id_val w = id_val v /\ (id_valid w = true <-> id_valid v = true).
Proof.
  intros v dst H. apply reachable_ok in H. cbn. unfold id_yaml. split; [reflexivity|]. unfold id_valid. rewrite id_new_val by apply H. split; [reflexivity|tauto].
Qed.
Example C84_ex : id_unyaml None (Some (id_yaml (id_new 77))) = (id_new 77, true). Proof. reflexivity. Qed.

(** A failing YAML decoder leaves the destination; nothing else fails. *)
Theorem C84_rejects : forall dst r w ok, id_unyaml dst r = (w, ok) -> (ok = false <-> r = None) /\ (ok = false -> w = dst).
Proof. intros dst [n|] w ok [= <- <-]; split; try split; congruence. Qed.
Example C84_rejects_ex : id_unyaml (id_new 77) None = (id_new 77, false). Proof. reflexivity. Qed.

(** ** C172: which array literals IDArray.Scan accepts *)
(** [array_text s ws]: s is an array literal with the element texts ws;
    [int_text w z]: w is a decimal int64 with an optional sign (both in IdSpec). *)
Theorem C172_scan_text : forall old s m ok, (ida_scan old (AStr s) = (m, ok) \/ ida_scan old (ABytes s) = (m, ok)) ->
  (ok = true <-> exists ws zs, array_text s ws /\ Forall2 int_text ws zs) /\
  (forall ws zs, array_text s ws -> Forall2 int_text ws zs -> ida_list m = map (fun z => z mod 2 ^ 64) zs) /\
  (ok = false -> m = []).
Proof.
  intros old s m ok H. assert (E : ida_scan old (AStr s) = (m, ok)) by (destruct H; assumption). clear H. cbn [ida_scan] in E. unfold pq_parse in E.
  assert (U : forall zs, ida_list (map (fun z => id_new (u64 z)) zs) = map (fun z => z mod 2 ^ 64) zs).
  { intros zs. unfold ida_list. rewrite map_map. apply map_ext. intros z. rewrite id_new_val; [reflexivity|]. unfold u64, wrap_u. apply Z.mod_pos_bound. lia. }
  destruct (pq_open 0 s) as [ws0|] eqn:P.
  - destruct (parse_all ws0) as [zs0|] eqn:Q; injection E as <- <-.
    + pose proof P as P'. apply array_text_iff in P'. pose proof Q as Q'. apply parse_all_iff in Q'. split; [|split; [|discriminate]].
      * split; [|reflexivity]. intros _. exists ws0, zs0. split; assumption.
      * intros ws zs A F. apply array_text_iff in A. rewrite P in A. injection A as <-. apply parse_all_iff in F. rewrite Q in F. injection F as <-. apply U.
    + assert (N : forall ws zs, array_text s ws -> Forall2 int_text ws zs -> False).
      { intros ws zs A F. apply array_text_iff in A. rewrite P in A. injection A as <-. apply parse_all_iff in F. congruence. }
      split; [split; [discriminate|intros (ws & zs & A & F); destruct (N ws zs A F)]|]. split; [intros ws zs A F; destruct (N ws zs A F)|reflexivity].
  - injection E as <- <-. assert (N : forall ws, array_text s ws -> False) by (intros ws A; apply array_text_iff in A; congruence).
    split; [split; [discriminate|intros (ws & zs & A & F); destruct (N ws A)]|]. split; [intros ws zs A F; destruct (N ws A)|reflexivity].
Qed.
(** Every other driver value: NULL empties the array, the rest is an error and empties it too. *)
Theorem C172_scan_other : forall old x, (forall s, x <> AStr s) -> (forall s, x <> ABytes s) ->
  fst (ida_scan old x) = [] /\ (snd (ida_scan old x) = true <-> x = ANil).
Proof.
  intros old x H1 H2. destruct x; cbn [ida_scan fst snd]; try (split; [reflexivity|split; [discriminate|discriminate]]); try (exfalso; eapply H1; reflexivity); try (exfalso; eapply H2; reflexivity).
  split; [reflexivity|split; reflexivity].
Qed.
Example C172_ex : array_text (B "{+7,""-1""}") [B "+7"; B "-1"] /\ int_text (B "-1") (-1) /\
  ida_scan [] (AStr (B "{+7,""-1""}")) = ([id_new 7; id_new (2 ^ 64 - 1)], true) /\ ida_scan [id_new 1] (ABytes (B "{{}}")) = ([], true) /\
  map (fun t => snd (ida_scan [] (AStr t))) [B "{}"; B "{1,}"; B "{,1}"; B "{1"; B "1"; B "{1}x"; B "{NULL}"; B "{1, 2}"; B "{{1},{2}}"; B "{""1\2""}"; B "{9223372036854775808}"; []] =
  [true; false; false; false; false; false; false; false; false; true; false; false].
Proof.
  split; [|split; [|vm_compute; repeat split; reflexivity]].
  - apply array_text_iff. vm_compute. reflexivity.
  - apply parse_int_text. vm_compute. reflexivity.
Qed.

(** ** Exact statements of what holds of refuted properties *)
(** C35: the text of a decoded ID is canonical exactly when the input was. *)
Theorem C35_exact_partial : forall data dst v, id_unjson dst data = (v, true) -> id_valid v = true ->
  (canonical (fst (id_string v)) (id_val v) <-> trim [dquote] data = fst (id_string (id_new (id_val v)))) /\
  fst (id_string v) = trim [dquote] data.
Proof.
  intros data dst v H V. unfold id_unjson in H. cbv zeta in H. destruct (is_empty (trim [dquote] data) || beqb (trim [dquote] data) (B "0")) eqn:E; [injection H as <-; discriminate V|].
  destruct (go_parse_uint (trim [dquote] data)) as [f|] eqn:P; [|discriminate]. injection H as <-. assert (S : trim [dquote] data <> []) by (intros X; rewrite X in E; discriminate).
  assert (T : fst (id_string (Some (mkIdptr f (trim [dquote] data)))) = trim [dquote] data).
  { cbn [id_string ip_str ip_id]. destruct (trim [dquote] data); [congruence|]. cbn [is_empty]. rewrite andb_false_r. reflexivity. }
  split; [|exact T]. rewrite T. cbn [id_val ip_id]. assert (F0 : f <> 0) by (intros ->; discriminate V).
  assert (Hf : 0 < f). { unfold go_parse_uint in P. apply parse_uint_iff in P as (D & Ev & _); [|lia]. pose proof (dec_val_nonneg _ D). lia. }
  assert (R : fst (id_string (id_new f)) = fmt_uint 10 f). { unfold id_new. destruct (Z.ltb_spec 0 f); [|lia]. cbn [id_string ip_str ip_id is_empty]. destruct (Z.eqb_spec f 0); [contradiction|]. reflexivity. }
  rewrite R. split; [apply canonical_unique|]. intros ->. apply fmt_uint_canonical. lia.
Qed.

(** C40 exactly: after r := s.Add(x), a further s.Add(y) leaves r unchanged
    exactly if one of the values was already there, they are equal, or the
    backing array of s was full. *)
Definition sl_cap (a : arrays) (s : slice) : nat := match s with None => 0%nat | Some (i, _) => length (sl_arr a i) end.
Theorem C40_exact_partial : forall g a s x y, (forall n, (n < g n)%nat) -> sl_wf a s ->
  let '(a1, r) := sl_add g a s x in let '(a2, _) := sl_add g a1 s y in
  (sl_elems a2 r = sl_elems a1 r <-> In x (sl_elems a s) \/ In y (sl_elems a s) \/ x = y \/ sl_len s = sl_cap a s).
Proof.
  intros g a s x y Hg Hs. unfold sl_add at 1. destruct (existsb (Z.eqb x) (sl_elems a s)) eqn:Ex.
  { pose proof (sl_add_spec g a s y Hs Hg) as H. destruct (sl_add g a s y) as [a2 r2]. destruct H as (_ & _ & H).
    apply sl_mem in Ex. split; [auto|]. intros _. apply (H s Hs). left. lia. }
  assert (Nx : ~ In x (sl_elems a s)) by (intros H; apply sl_mem in H; congruence). clear Ex.
  pose proof (sl_append_spec g a s x Hs Hg) as H1. destruct (sl_append g a s x) as [a1 r] eqn:E1. destruct H1 as (W1 & R1 & K1).
  destruct (K1 s Hs (or_introl (le_n _))) as [Ws Es]. unfold sl_add. rewrite Es. destruct (existsb (Z.eqb y) (sl_elems a s)) eqn:Ey.
  { apply sl_mem in Ey. split; [auto|reflexivity]. }
  assert (Ny : ~ In y (sl_elems a s)) by (intros H; apply sl_mem in H; congruence). clear Ey.
  pose proof (sl_append_spec g a1 s y Ws Hg) as H2. destruct (sl_append g a1 s y) as [a2 r2] eqn:E2. destruct H2 as (W2 & R2 & K2).
  destruct s as [[i n]|].
  - destruct Hs as [Hi Hn]. unfold sl_append in E1. cbn [sl_len] in E1. destruct (Nat.ltb_spec n (length (sl_arr a i))) as [Hc|Hc].
    + injection E1 as Ea Er. assert (Hl : length (sl_arr a1 i) = length (sl_arr a i)).
      { rewrite <- Ea. unfold sl_arr. rewrite upd_nth_same by exact Hi. apply upd_length. }
      unfold sl_append in E2. cbn [sl_len] in E2. rewrite Hl in E2. replace (n <? length (sl_arr a i))%nat with true in E2 by (symmetry; apply Nat.ltb_lt; exact Hc).
      injection E2 as _ Er2. rewrite Er in Er2. rewrite Er2, R2, <- Er2, R1, Es. split.
      * intros H. apply app_inv_head in H. injection H as H. auto.
      * cbn [sl_len sl_cap]. intros [H|[H|[->|H]]]; [contradiction|contradiction|reflexivity|lia].
    + injection E1 as _ Er. split; [intros _; right; right; right; cbn [sl_len sl_cap]; lia|]. intros _. apply (K2 r W1). right. rewrite <- Er. lia.
  - split; [intros _; right; right; right; reflexivity|]. intros _. apply (K2 r W1). right. exact I.
Qed.
(** The other direction holds always: what is appended to the result never shows
    in the receiver. *)
Theorem C40_receiver_partial : forall g a s x y, (forall n, (n < g n)%nat) -> sl_wf a s ->
  let '(a1, r) := sl_add g a s x in let '(a2, _) := sl_add g a1 r y in sl_elems a2 s = sl_elems a s.
Proof.
  intros g a s x y Hg Hs. pose proof (sl_add_spec g a s x Hs Hg) as H. destruct (sl_add g a s x) as [a1 r]. destruct H as (W1 & R1 & K1).
  destruct (K1 s Hs (or_introl (le_n _))) as [Ws Es].
  pose proof (sl_add_spec g a1 r y W1 Hg) as H. destruct (sl_add g a1 r y) as [a2 r2]. destruct H as (_ & _ & K2).
  rewrite <- Es. apply (K2 s Ws). left. rewrite <- (sl_elems_length _ _ W1), <- (sl_elems_length _ _ Hs), R1.
  destruct (in_dec Z.eq_dec x (sl_elems a s)); [lia|]. rewrite app_length. lia.
Qed.
(** Four elements fill the array of four: the lists are independent. *)
Example C40_exact_partial_ex : let l := sl_new go_grow [] [1; 2; 3; 4] in sl_len (snd l) = sl_cap (fst l) (snd l) /\
  let x := sl_add go_grow (fst l) (snd l) 8 in let y := sl_add go_grow (fst x) (snd l) 9 in
  sl_elems (fst y) (snd x) = [1; 2; 3; 4; 8] /\ sl_elems (fst y) (snd y) = [1; 2; 3; 4; 9].
Proof. vm_compute. repeat split; reflexivity. Qed.

(** Invalid, IsZero and Valid: a nil ID and one whose number is 0 are invalid,
    every other ID is valid; so whatever ParseID refuses is invalid and whatever it
    accepts is not. *)
Theorem C33_validity : forall v, (id_invalid v = true <-> v = None \/ exists p, v = Some p /\ ip_id p = 0) /\
  (id_valid v = true <-> exists p, v = Some p /\ ip_id p <> 0).
Proof.
  intros [p|]; unfold id_invalid, id_valid; cbn [id_val]; rewrite ?negb_true_iff, ?Z.eqb_eq, ?Z.eqb_neq; split; split.
  - intros H. right. exists p. auto.
  - intros [H|(q & H & E)]; [discriminate H|]. injection H as <-. exact E.
  - intros H. exists p. auto.
  - intros (q & H & E). injection H as <-. exact E.
  - intros _. left. reflexivity.
  - intros _. reflexivity.
  - intros H. destruct H. reflexivity.
  - intros (q & H & _). discriminate H.
Qed.
Theorem C33_invalid_on_error : forall s, id_invalid (fst (parse_id s)) = negb (snd (parse_id s)).
Proof.
  intros s. pose proof (C33_parse_id s) as H. destruct (parse_id s) as [v ok]. cbn [fst snd]. destruct H as (_ & H1 & H2). destruct ok; cbn [negb].
  - destruct (H1 eq_refl) as (_ & V & _). unfold id_invalid. unfold id_valid in V. apply negb_true_iff in V. exact V.
  - destruct (H2 eq_refl) as (_ & V). unfold id_invalid. rewrite V. reflexivity.
Qed.
Example C33_validity_ex : id_invalid None = true /\ id_invalid (Some (mkIdptr 0 [])) = true /\ id_valid (Some (mkIdptr 7 [])) = true.
Proof. repeat split; reflexivity. Qed.

(** Exactly: Set and Reset change another variable only if both hold the same cell, and
    then both show the new value. *)
Theorem C38_exact_partial : forall k l o y, ~ quiet o -> op_target o <> y ->
  let s := iv_run (iv_init k) l in
  iv_uint64 (iv_step s o) y =
  match iv_get s (op_target o), iv_get s y with
  | Some a, Some b => if (a =? b)%nat then iv_uint64 (iv_step s o) (op_target o) else iv_uint64 s y
  | _, _ => iv_uint64 s y
  end.
Proof.
  intros k l o y Hq Hy s. assert (W : wf s) by (apply run_wf, init_wf). clearbody s.
  assert (IN : forall x c p, c = Some p -> x <> y -> iv_uint64 (iv_inplace s x c) y = match iv_get s x, iv_get s y with
    | Some a, Some b => if (a =? b)%nat then iv_uint64 (iv_inplace s x c) x else iv_uint64 s y | _, _ => iv_uint64 s y end).
  { intros x c p -> N. unfold iv_inplace. destruct (iv_get s x) as [a|] eqn:Ex; [|apply fresh_other; assumption].
    unfold iv_uint64, iv_content, iv_get in *. cbn [iv_vars]. rewrite Ex. destruct (nth y (iv_vars s) None) as [b|]; [|reflexivity]. cbn [iv_load iv_heap].
    destruct (Nat.eqb_spec a b) as [->|D]; [reflexivity|]. rewrite upd_nth_error_other by assumption. reflexivity. }
  destruct o as [x n|x z|x t|x|x v|x d|x r|x]; cbn [quiet] in Hq; try (exfalso; tauto); cbn [op_target iv_step] in *.
  - pose proof (id_set_spec (iv_content s x) t) as G. destruct (id_set (iv_content s x) t) as [c [|]].
    + destruct G as (_ & G2 & _). apply (IN x c _ (G2 eq_refl) Hy).
    + destruct (iv_get s x) as [a|] eqn:Ex, (iv_get s y) as [b|] eqn:Ey; try reflexivity. destruct (Nat.eqb_spec a b) as [->|D]; [|reflexivity].
      unfold iv_uint64, iv_content. rewrite Ex, Ey. reflexivity.
  - apply (IN x _ _ eq_refl Hy).
Qed.
Example C38_exact_ex : let s := iv_run (iv_init 3) [OpNew 0 1; OpCopy 1 0; OpNew 2 1] in iv_get s 0 = iv_get s 1 /\ iv_get s 0 <> iv_get s 2 /\
  iv_uint64 (iv_step s (OpSet 0 (B "7"))) 1 = 7 /\ iv_uint64 (iv_step s (OpSet 0 (B "7"))) 2 = 1.
Proof. vm_compute. repeat split. discriminate. Qed.

(** ** Assumptions *)
Print Assumptions C32_parse_uint.
Print Assumptions C32_inverse.
Print Assumptions C32_canonical_text.
Print Assumptions C32_quoted.
Print Assumptions C33_parse_id.
Print Assumptions C33_try_must_agree.
Print Assumptions C34_json_value.
Print Assumptions C34_json_accepts.
Print Assumptions C34_json_string_partial.
Print Assumptions C34_json_string_refuted.
Print Assumptions C35_canonical_refuted.
Print Assumptions C35_canonical_partial.
Print Assumptions C36_value_scan.
Print Assumptions C38_copies_refuted.
Print Assumptions C38_copies_partial.
Print Assumptions C38_no_copies_partial.
Print Assumptions C39_add.
Print Assumptions C39_concat.
Print Assumptions C39_new.
Print Assumptions C39_contains_overlaps.
Print Assumptions C40_independent_refuted.
Print Assumptions C40_add_partial.
Print Assumptions C40_concat_partial.
Print Assumptions C41_value_scan.
Print Assumptions C42_sort.
Print Assumptions C81_parse_order_refuted.
Print Assumptions C81_parse_order_partial.
Print Assumptions C82_equal_text_refuted.
Print Assumptions C82_equal_text_partial.
Print Assumptions C82_text_partial.
Print Assumptions C83_strings_back.
Print Assumptions C83_string.
Print Assumptions C83_int64.
Print Assumptions C84_yaml.
Print Assumptions C84_rejects.
Print Assumptions C172_scan_text.
Print Assumptions C172_scan_other.
Print Assumptions C35_exact_partial.
Print Assumptions C40_exact_partial.
Print Assumptions C40_receiver_partial.
Print Assumptions C33_validity.
Print Assumptions C33_invalid_on_error.
Print Assumptions C38_exact_partial.
