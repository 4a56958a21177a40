(** Property theorems C55-C64, C93-C97: QueryParams, list queries, paging,
    cursors.  [mm] stands for murmur3's 64-bit sum: every theorem holds for every
    function in its place. *)
From Verif Require Import GoBase GoBaseFacts TypeModel TypeSpec TypeProofs ParamModel ParamSpec ParamProofs QueryProofs.
From Coq Require Import Permutation Sorted.
Open Scope Z_scope.

(** Sample programs. *)
Definition prog1 : list call := [CSet 0 (AInt 7); CEnum 63 (-1); CAdd [AStr (B "z")]; CFlags [2; -3]; CPage 0 40; CSet 1 (AInt 8); CSet 64 (AInt 9)].
Example prog1_ok : Forall call_ok prog1 /\ no_name prog1 /\ no_null prog1.
Proof.
  unfold prog1, no_name, no_null. split; [|split; [intros X|intros cs X]; cbn in X; repeat (destruct X as [X|X]; [discriminate|]); exact X].
  repeat apply Forall_cons; try apply Forall_nil; cbn; unfold uint32_ok, int32_ok; try lia.
Qed.
Example prog1_name mm : name_of mm (run mm (B "q_") prog1) = B "q__x8000000000000001_63xffffffffffffffff_fx2_fx-3_o". Proof. reflexivity. Qed.

(** ** C55 *)
(** Equal names exactly for equal query names, positions, enums (in call order),
    flags and kind of paging. *)
Theorem C55_name : forall mm q1 q2 l1 l2, Forall call_ok l1 -> Forall call_ok l2 -> no_name l1 -> no_name l2 -> no_null l1 -> no_null l2 ->
  (name_of mm (run mm q1 l1) = name_of mm (run mm q2 l2) <->
   q1 = q2 /\ (forall p, (exists c, In c (accepted l1) /\ sets p c) <-> (exists c, In c (accepted l2) /\ sets p c)) /\
   enums_used (accepted l1) = enums_used (accepted l2) /\ flags_used (accepted l1) = flags_used (accepted l2) /\ paging_used (accepted l1) = paging_used (accepted l2)).
Proof.
  intros mm q1 q2 l1 l2 K1 K2 N1 N2 U1 U2. pose proof (run_inv mm q1 l1 K1) as I1. pose proof (run_inv mm q2 l2 K2) as I2.
  destruct (run_null mm q1 l1 N1) as [A1 H1]. destruct (run_null mm q2 l2 N2) as [A2 H2].
  assert (NU : forall l, no_null l -> nulls_used l = []).
  { induction l as [|c l IH] using rev_ind; intros U; [reflexivity|]. unfold nulls_used. rewrite fold_left_app. cbn [fold_left]. fold (nulls_used l). rewrite IH by (intros cs X; apply (U cs), in_or_app; left; exact X).
    destruct c; try reflexivity. exfalso. apply (U cols), in_or_app. right. left. reflexivity. }
  rewrite (name_fresh mm _ H1), (name_fresh mm _ H2), (text_inj mm _ _ (inv_fields_ok _ _ _ I1) (inv_fields_ok _ _ _ I2)).
  rewrite A1, A2, (NU l1 U1), (NU l2 U2). destruct I1, I2. rewrite i_name, i_name0, i_enums, i_enums0, i_flags, i_flags0, i_kind, i_kind0. split.
  - intros (E1 & E2 & E3 & E4 & E5 & _). split; [exact E1|]. split; [|split; [exact E3|split; [exact E4|exact E5]]].
    intros p. split; intros Hp; [pose proof (i_low p Hp) as R; rewrite <- i_bits0, <- E2, i_bits by lia; exact Hp|pose proof (i_low0 p Hp) as R; rewrite <- i_bits, E2, i_bits0 by lia; exact Hp].
  - intros (E1 & E2 & E3 & E4 & E5). split; [exact E1|]. split; [|tauto]. apply Z.bits_inj'. intros p Hp. apply eq_iff_eq_true. rewrite i_bits, i_bits0 by exact Hp. apply E2.
Qed.
Example C55_ex : forall mm, name_of mm (run mm (B "q") [CEnum 1 2; CEnum 3 4]) <> name_of mm (run mm (B "q") [CEnum 3 4; CEnum 1 2]).
Proof. intros mm. discriminate. Qed.

(** ** C56 *)
Theorem C56_null_columns_refuted : exists c1 c2, ~ Permutation c1 c2 /\ forall mm q, name_of mm (run mm q [CNull c1]) = name_of mm (run mm q [CNull c2]).
Proof.
  exists [B "a"; B "bc"], [B "ab"; B "c"]. split; [|reflexivity]. intros P. apply (Permutation_in (B "a")) in P; [|left; reflexivity]. destruct P as [P|[P|[]]]; discriminate.
Qed.
(** What holds: the order of the columns does not matter, and different
    concatenations with different sums give different names. *)
Theorem C56_null_columns_partial : forall mm q c1 c2,
  (Permutation c1 c2 -> name_of mm (run mm q [CNull c1]) = name_of mm (run mm q [CNull c2])) /\
  (c1 <> [] -> c2 <> [] -> u64 (mm (concat (sort_strings c1))) <> u64 (mm (concat (sort_strings c2))) -> name_of mm (run mm q [CNull c1]) <> name_of mm (run mm q [CNull c2])) /\
  (c1 <> [] -> name_of mm (run mm q [CNull c1]) <> name_of mm (run mm q [])).
Proof.
  intros mm q c1 c2. assert (F : forall c, fields_ok (run mm q [CNull c])) by (intros c; split; [cbn; lia|split; constructor]). assert (F0 : fields_ok (run mm q [])) by (split; [cbn; lia|split; constructor]).
  rewrite !name_fresh by reflexivity. split; [|split].
  - intros P. apply text_inj; [apply F|apply F|]. repeat split. cbn [run fold_left step try_call pb_null qb_null]. unfold null_toks. rewrite (sort_perm_eq c1 c2 P).
    destruct c1, c2; try reflexivity; [apply Permutation_nil in P|symmetry in P; apply Permutation_nil in P]; discriminate.
  - intros N1 N2 H E. apply text_inj in E; [|apply F|apply F]. destruct E as (_ & _ & _ & _ & _ & E). cbn [run fold_left step try_call pb_null qb_null] in E. unfold null_toks in E.
    destruct c1; [congruence|]. destruct c2; [congruence|]. cbn [is_empty] in E. injection E as E. apply fmt_uint_inj in E; [exact (H E)|lia|apply u64_range|apply u64_range].
  - intros N1 E. apply text_inj in E; [|apply F|apply F0]. destruct E as (_ & _ & _ & _ & _ & E). cbn [run fold_left step try_call pb_null qb_null new_params] in E. unfold null_toks in E.
    destruct c1; [congruence|]. discriminate.
Qed.

(** ** C57 *)
Theorem C57_current_refuted : exists l c, Forall call_ok (l ++ [c]) /\ forall mm q,
  name_of mm (run mm q (l ++ [c])) = name_of mm (run mm q l) /\ pb_is_set (run mm q (l ++ [c])) 5 = true /\ pb_is_set (run mm q l) 5 = false.
Proof.
  exists [CName], (CSet 5 (AInt 1)). split; [repeat apply Forall_cons; try apply Forall_nil; cbn; unfold uint32_ok; lia || exact Logic.I|]. intros mm q.
  split; [|split; reflexivity]. cbn [app run fold_left step try_call]. unfold name_of. assert (H : qb_hash (fst (pb_name mm (new_params q))) <> []).
  { unfold pb_name. cbn [is_empty new_params qb_hash fst]. unfold pb_text. intros X. apply app_eq_nil in X as [_ X]. discriminate. }
  assert (W : forall b, qb_hash b <> [] -> snd (pb_name mm b) = qb_hash b) by (intros b Hb; unfold pb_name; destruct (qb_hash b); [congruence|reflexivity]). rewrite !W; [reflexivity|exact H|exact H].
Qed.
(** The first Name() reflects all calls so far (C55), and asking again does not
    change the answer. *)
Theorem C57_current_partial : forall mm q l, let n := name_of mm (run mm q l) in name_of mm (run mm q (l ++ [CName])) = n.
Proof.
  intros mm q l n. unfold n. rewrite run_snoc. unfold step. cbn [try_call]. set (b := run mm q l). unfold name_of, pb_name. destruct (qb_hash b) as [|x s] eqn:E; cbn [is_empty fst snd].
  - assert (N : pb_text mm b <> []) by (unfold pb_text; intros X; apply app_eq_nil in X as [_ X]; discriminate). cbn [qb_hash]. destruct (pb_text mm b) eqn:T; [congruence|reflexivity].
  - rewrite E. reflexivity.
Qed.

(** ** C58 *)
Theorem C58_builder : forall mm q l, Forall call_ok l -> let b := run mm q l in let h := accepted l in
  (forall p, 0 <= p -> (pb_is_set b p = true <-> exists c, In c h /\ sets p c)) /\
  (forall p, pb_get_enum b p = match find (fun e => fst e =? p) (enums_used h) with Some e => Some (snd e) | None => None end) /\
  qb_args b = args_used h /\ qb_flags b = flags_used h.
Proof.
  intros mm q l K b h. pose proof (run_inv mm q l K) as I. fold b in I. fold h in I. destruct I. split; [|split; [|split; assumption]].
  - intros p Hp. unfold pb_is_set. rewrite negb_true_iff, Z.eqb_neq. destruct (Z_le_dec p 63) as [L|L].
    + rewrite <- i_bits by exact Hp. destruct (bit_spec p ltac:(lia)) as [-> _]. split.
      * intros N. destruct (Z.testbit (qb_pos b) p) eqn:T; [reflexivity|]. exfalso. apply N. apply Z.bits_inj'. intros k Hk. rewrite Z.land_spec, Z.bits_0, Z.pow2_bits_eqb by lia.
        destruct (Z.eqb_spec p k) as [->|]; [rewrite T; reflexivity|apply andb_false_r].
      * intros T E. apply (f_equal (fun z => Z.testbit z p)) in E. rewrite Z.land_spec, Z.bits_0, T, Z.pow2_bits_true in E by lia. discriminate.
    + rewrite bit_high, Z.land_0_r by lia. split; [intros N; congruence|]. intros X. pose proof (i_low p X). lia.
  - intros p. unfold pb_get_enum. rewrite i_enums. clear i_enums. induction (enums_used h) as [|[a v] es IH]; [reflexivity|]. cbn [find_enum find fst snd]. destruct (a =? p); [reflexivity|exact IH].
Qed.
(** Page and Cursor report the (only) accepted paging call. *)
Theorem C58_page : forall mm q l, Forall call_ok l -> let b := run mm q l in
  match find is_paging (accepted l) with
  | Some (CPage lim off) => qb_limit b = limit_used lim /\ qb_offset b = off /\ qb_cursor b = ANil
  | Some (CCursor lim _ c) => qb_limit b = limit_used lim /\ qb_offset b = 0 /\ qb_cursor b = c
  | _ => qb_limit b = 0 /\ qb_offset b = 0 /\ qb_cursor b = ANil
  end.
Proof.
  intros mm q l. induction l as [|c l IH] using rev_ind; intros K; [cbn; repeat split|]. apply Forall_app in K as [K1 K2]. specialize (IH K1). pose proof (run_inv mm q l K1) as I.
  rewrite run_snoc, accepted_snoc. cbv zeta in *. set (b := run mm q l) in *. set (h := accepted l) in *.
  assert (FA : forall c, is_paging c = false -> find is_paging (h ++ [c]) = find is_paging h).
  { intros d Hd. clear -Hd. induction h as [|x h IH]; cbn; [rewrite Hd; reflexivity|]. destruct (is_paging x); [reflexivity|exact IH]. }
  assert (FN : existsb is_paging h = false -> forall c, is_paging c = true -> find is_paging (h ++ [c]) = Some c).
  { clear. intros E d Hd. induction h as [|x h IH]; cbn in *; [rewrite Hd; reflexivity|]. destruct (is_paging x); [discriminate|]. apply IH. exact E. }
  pose proof (i_paged _ _ _ I) as P. unfold step. destruct c as [p v|p v|vs|lim o|lim p v|fs|cs| |]; cbn [try_call acc_step refused].
  - unfold pb_set, check_page. rewrite <- P. destruct (63 <? p); [exact IH|]. destruct (0 <? qb_limit b); cbn [orb]; [exact IH|]. rewrite FA by reflexivity. exact IH.
  - unfold pb_enum, check_page. rewrite <- P. destruct (63 <? p); [exact IH|]. destruct (0 <? qb_limit b); cbn [orb]; [exact IH|]. rewrite FA by reflexivity. exact IH.
  - unfold pb_add, check_page. rewrite <- P. destruct (0 <? qb_limit b); [exact IH|]. rewrite FA by reflexivity. exact IH.
  - unfold pb_page, check_page. rewrite <- P. destruct (0 <? qb_limit b) eqn:L; [exact IH|]. rewrite FN by (try reflexivity; congruence). apply Z.ltb_ge in L. destruct (i_zero _ _ _ I) as [_ Zc]; [pose proof (i_limit _ _ _ I); lia|].
    cbn. repeat split. exact Zc.
  - unfold pb_cursor, pb_set, check_page. rewrite <- P. destruct (63 <? p); [exact IH|]. destruct (0 <? qb_limit b) eqn:L; cbn [orb]; [exact IH|]. rewrite FN by (try reflexivity; congruence). apply Z.ltb_ge in L.
    destruct (i_zero _ _ _ I) as [Zo _]; [pose proof (i_limit _ _ _ I); lia|]. cbn. repeat split. exact Zo.
  - rewrite FA by reflexivity. exact IH.
  - rewrite FA by reflexivity. exact IH.
  - rewrite FA by reflexivity. unfold pb_name. destruct (is_empty (qb_hash b)); exact IH.
  - cbn. repeat split.
Qed.
(** A call panics exactly when it is refused; then nothing changes. *)
Theorem C58_panics : forall mm q l c, Forall call_ok l -> let b := run mm q l in
  (try_call mm b c = None <-> refused (existsb is_paging (accepted l)) c = true) /\ (try_call mm b c = None -> run mm q (l ++ [c]) = b).
Proof.
  intros mm q l c K b. split; [|intros E; rewrite run_snoc; fold b; unfold step; rewrite E; reflexivity].
  rewrite <- (i_paged _ _ _ (run_inv mm q l K)). fold b. destruct c as [p v|p v|vs|lim o|lim p v|fs|cs| |]; cbn [try_call refused];
    unfold pb_set, pb_enum, pb_add, pb_page, pb_cursor, pb_set, check_page; try (destruct (63 <? p)); cbn [orb]; try (destruct (0 <? qb_limit b)); split; intros; (reflexivity || discriminate).
Qed.
Example C58_ex : forall mm, let b := run mm (B "q") prog1 in
  qb_args b = [AInt 7; AStr (B "z"); AUint32 500; AUint32 40] /\ pb_is_set b 63 = true /\ pb_is_set b 64 = false /\ pb_is_set b 1 = false /\ pb_get_enum b 63 = Some (-1).
Proof. intros mm. repeat split. Qed.

(** ** C59 *)
Theorem C59_reset_refuted : exists l, Forall call_ok l /\ forall mm q, ~ same_view mm (run mm q (l ++ [CReset])) (new_params q) /\ qb_null (run mm q (l ++ [CReset])) <> [].
Proof.
  exists [CNull [B "ssn"]]. split; [repeat constructor|]. intros mm q. split; [|discriminate]. intros (_ & _ & _ & E & _). discriminate.
Qed.
(** A builder on which no null columns were set behaves ever after as a new one. *)
Theorem C59_reset_partial : forall mm q l l2, Forall call_ok l -> no_null l -> run mm q (l ++ CReset :: l2) = run mm q l2.
Proof.
  intros mm q l l2 K U. unfold run at 1. rewrite fold_left_app. cbn [fold_left]. change (fold_left (step mm) l (new_params q)) with (run mm q l). unfold run at 2. f_equal. unfold step. cbn [try_call]. unfold pb_reset, new_params.
  rewrite (i_name _ _ _ (run_inv mm q l K)). f_equal. clear K. induction l as [|c l IH] using rev_ind; [reflexivity|]. rewrite run_snoc.
  assert (IH' : qb_null (run mm q l) = []) by (apply IH; intros cs X; apply (U cs), in_or_app; left; exact X). unfold step.
  destruct c as [p v|p v|vs|lim o|lim p v|fs|cs| |]; cbn [try_call]; unfold pb_set, pb_enum, pb_add, pb_page, pb_cursor, pb_set, check_page, pb_name;
    try (destruct (63 <? p)); try (destruct (0 <? qb_limit (run mm q l))); try (destruct (is_empty (qb_hash (run mm q l)))); cbn [fst]; try exact IH'; try (cbn; rewrite IH'; reflexivity).
  all: exfalso; apply (U cs), in_or_app; right; left; reflexivity.
Qed.

(** ** C60 *)
(** Following the reported offsets from 0, the loop ends, the pages put together
    are the whole result, and there are floor(rows/limit)+1 of them: with a
    builder (SetPage after any calls without paging) ... *)
Definition page_builder (b : builder) (lim off : Z) : builder := match pb_page b lim off with Some b' => b' | None => b end.
Theorem C60_paging : forall R (all : list R) db sql b lim, offset_db all db sql -> Z.of_nat (length all) < 2 ^ 32 -> qb_limit b = 0 -> 0 <= lim < 2 ^ 32 ->
  let fetch off := snd (query_paged db sql [QP (page_builder b lim off)]) in
  (exists ps, follow fetch 0 ps) /\
  forall ps, follow fetch 0 ps -> concat ps = all /\ Forall (fun p => Z.of_nat (length p) <= limit_used lim) ps /\ Z.of_nat (length ps) = Z.of_nat (length all) / limit_used lim + 1.
Proof.
  intros R all db sql b lim Hdb Hlen Hb Hlim fetch. assert (L1 : 1 <= limit_used lim) by (unfold limit_used; destruct (lim =? 0) eqn:E; [lia|apply Z.eqb_neq in E; lia]).
  assert (PS : page_spec all (limit_used lim) fetch).
  { intros off Ho p. unfold fetch, p. apply (query_paged_spec all db sql _ (map QV (qb_args b))); try assumption. unfold page_builder, pb_page, check_page. rewrite Hb. cbn [Z.ltb Z.compare].
    cbn [page_args qb_limit qb_offset qb_args]. rewrite map_app. reflexivity. }
  split; [apply (follow_exists all _ fetch L1 PS (length all)); lia|]. intros ps H. pose proof (follow_spec all _ fetch L1 PS 0 ps H ltac:(lia)) as (F1 & F2 & F3). rewrite Z.sub_0_r in F3. repeat split; assumption.
Qed.
(** ... and with limit and offset as the last two arguments. *)
Theorem C60_paging_args : forall R (all : list R) db sql pre lim, offset_db all db sql -> Z.of_nat (length all) < 2 ^ 32 -> 1 <= lim < 2 ^ 32 ->
  let fetch off := snd (query_paged db sql (pre ++ [QV (AUint32 lim); QV (AUint32 off)])) in
  (exists ps, follow fetch 0 ps) /\
  forall ps, follow fetch 0 ps -> concat ps = all /\ Forall (fun p => Z.of_nat (length p) <= lim) ps /\ Z.of_nat (length ps) = Z.of_nat (length all) / lim + 1.
Proof.
  intros R all db sql pre lim Hdb Hlen Hlim fetch.
  assert (PS : page_spec all lim fetch) by (intros off Ho p; unfold fetch, p; apply (query_paged_spec all db sql _ pre); try assumption; apply page_args_two; reflexivity).
  split; [apply (follow_exists all lim fetch ltac:(lia) PS (length all)); lia|]. intros ps H. pose proof (follow_spec all lim fetch ltac:(lia) PS 0 ps H ltac:(lia)) as (F1 & F2 & F3). rewrite Z.sub_0_r in F3. repeat split; assumption.
Qed.
(** A database with two matching arguments before the page. *)
Definition sample_db (all : list Z) : qdb Z := fun _ args =>
  match rev args with
  | QV (AUint32 off) :: QV (AUint32 lim) :: _ => inl (ok_rows (firstn (Z.to_nat lim) (skipn (Z.to_nat off) all)))
  | _ => inr 1
  end.
Example C60_ex_db : forall all sql, offset_db all (sample_db all) sql.
Proof. intros all sql pre lim off. unfold sample_db. rewrite rev_app_distr. reflexivity. Qed.
Example C60_ex : forall sql, exists ps, follow (fun off => snd (query_paged (sample_db [1; 2; 3; 4]) sql [QV (AUint32 2); QV (AUint32 off)])) 0 ps /\ ps = [[1; 2]; [3; 4]; []].
Proof. intros sql. eexists. split; [|reflexivity]. eapply follow_more; [reflexivity|]. eapply follow_more; [reflexivity|]. eapply follow_last. reflexivity. Qed.

(** ** C61 *)
Theorem C61_no_limit_refuted : forall R (r : R) sql, let db : qdb R := fun _ _ => inl (ok_rows [r]) in
  snd (query_paged db sql []) = ROk ([r], true, 1) /\ snd (query_paged db sql [QV (AStr (B "x"))]) = ROk ([r], true, 1) /\
  snd (query_paged db sql [QP (new_params (B "q"))]) = ROk ([r], true, 1) /\ snd (query_cursor db sql []) = ROk ([r], true) /\
  snd (query_paged (fun _ _ => inl (ok_rows (@nil R))) sql []) = ROk ([], true, 0).
Proof. intros. repeat split. Qed.
(** With a limit the claim is exact: a next page is reported iff the page is
    full; ExecuteQuery never reports one. *)
Theorem C61_no_limit_partial : forall R (db : qdb R) sql args lim off args' l, page_args args = Some (lim, off, args') -> snd (list_query db sql args') = ROk l ->
  Z.of_nat (length l) < 2 ^ 32 ->
  (exists n, snd (query_paged db sql args) = ROk (l, lim <=? Z.of_nat (length l), n)) /\
  (forall a, match snd (query_all db sql a) with ROk (_, has, n) => has = false /\ n = 0 | _ => True end).
Proof.
  intros R db sql args lim off args' l Ha Hl Hn. split.
  - unfold query_paged. rewrite Ha. destruct (list_query db sql args') as [t o]. cbn [snd] in *. subst o. unfold u32. rewrite (wrap_u_id 32 (Z.of_nat (length l))) by lia. eexists. reflexivity.
  - intros a. unfold query_all. match goal with |- context [list_query db sql ?x] => destruct (list_query db sql x) as [t [l'|e|]] end; cbn [snd]; try exact Logic.I. split; reflexivity.
Qed.

(** ** C62 *)
Theorem C62_midway_refuted : forall R (r : R) sql args, exists db : qdb R, exists src e, db sql args = inl src /\ src_err src = Some e /\ snd (list_query db sql args) = ROk [r].
Proof. intros R r sql args. exists (fun _ _ => inl (mkSrc [SRow r] (Some 7))), (mkSrc [SRow r] (Some 7)), 7. repeat split. Qed.
(** Errors of the query itself and of scanning are returned; a list is returned
    only when every row delivered was scanned. *)
Theorem C62_midway_partial : forall R (db : qdb R) sql args l, snd (list_query db sql args) = ROk l -> exists src, db sql args = inl src /\ src_rows src = map SRow l.
Proof.
  intros R db sql args l H. unfold list_query in H. destruct (db sql args) as [src|e]; [|discriminate]. exists src. split; [reflexivity|].
  destruct (scan_split (src_rows src)) as [(rs & E)|[(rs & e & rest & E)|(rs & rest & E)]]; rewrite E in *.
  - destruct (scan_loop_ok rs 0) as (t & T & _). rewrite T in H. cbn in H. injection H as <-. reflexivity.
  - destruct (scan_loop_stop rs rest 0) as [T _]. destruct (T e) as (t & T'). rewrite T' in H. discriminate.
  - destruct (scan_loop_stop rs rest 0) as [_ (t & T')]. rewrite T' in H. discriminate.
Qed.
(** QueryRow does report it. *)
Theorem C62_query_row_partial : forall R (db : qdb R) sql args src e, db sql args = inl src -> src_rows src = [] -> src_err src = Some e -> query_row db sql args = RErr e.
Proof. intros R db sql args src e H1 H2 H3. unfold query_row. rewrite H1, H2, H3. reflexivity. Qed.

(** ** C63 *)
Theorem C63_list_query : forall R (db : qdb R) sql args src, db sql args = inl src -> let '(t, o) := list_query db sql args in
  (exists mid, t = QQuery sql args :: mid ++ [QClose]) /\ closes t = 1%nat /\
  (forall rs, src_rows src = map SRow rs -> o = ROk rs) /\
  (forall rs e rest, src_rows src = map SRow rs ++ SFail e :: rest -> o = RErr e) /\
  (forall rs rest, src_rows src = map SRow rs ++ SPanic :: rest -> o = RPanic).
Proof.
  intros R db sql args src H. unfold list_query. rewrite H. pose proof (scan_loop_closes (src_rows src) 0) as C. destruct (scan_loop 0 (src_rows src)) as [t o] eqn:S. cbn [fst] in C.
  split; [exists t; reflexivity|]. split; [change (closes (QQuery sql args :: t ++ [QClose])) with (closes (t ++ [QClose])); rewrite closes_app, C; reflexivity|]. split; [|split].
  - intros rs E. rewrite E in S. destruct (scan_loop_ok rs 0) as (t' & T & _). congruence.
  - intros rs e rest E. rewrite E in S. destruct (scan_loop_stop rs rest 0) as [T _]. destruct (T e) as (t' & T'). congruence.
  - intros rs rest E. rewrite E in S. destruct (scan_loop_stop rs rest 0) as [_ (t' & T')]. congruence.
Qed.
Theorem C63_query_error : forall R (db : qdb R) sql args e, db sql args = inr e -> list_query db sql args = ([QQuery sql args], RErr e).
Proof. intros R db sql args e H. unfold list_query. rewrite H. reflexivity. Qed.
Example C63_ex : list_query (fun _ _ => inl (mkSrc [SRow 1; SFail 9; SRow 3] None)) (B "S") [] = ([QQuery (B "S") []; QScan 0; QScan 1; QClose], RErr 9).
Proof. reflexivity. Qed.

(** ** C64 *)
Theorem C64_cursor_roundtrip : forall s, b64_decode (b64_encode s) = Some s /\ Forall (fun c => url_char c = true) (b64_encode s) /\ Z.of_nat (length (b64_encode s)) = (4 * Z.of_nat (length s) + 2) / 3.
Proof.
  intros s. split; [|split; [eapply Forall_impl; [|apply b64_encode_chars]; intros ? [X Y]; assumption|apply b64_encode_len]]. unfold b64_decode.
  rewrite filter_all by (eapply Forall_impl; [|apply b64_encode_chars]; intros ? [X Y]; assumption). destruct (b64_roundtrip s) as (l & -> & E). exact E.
Qed.
(** Accepted: texts over the alphabet (new lines ignored) whose length leaves no
    single character over. *)
Theorem C64_accepts : forall s, b64_decode s <> None <-> Forall (fun c => url_char c = true) (filter not_newline s) /\ (length (filter not_newline s) mod 4)%nat <> 1%nat.
Proof.
  intros s. unfold b64_decode. rewrite <- b64_vals_some. destruct (b64_vals (filter not_newline s)) as [l|] eqn:E.
  - rewrite <- (b64_vals_len _ _ E). rewrite (b64_groups_some (length l) l (Nat.le_refl _)). split; [intros H; split; [discriminate|exact H]|intros [_ H]; exact H].
  - split; [intros H; congruence|intros [H _]; congruence].
Qed.
Theorem C64_injective : forall a b, b64_encode a = b64_encode b -> a = b.
Proof. intros a b E. destruct (C64_cursor_roundtrip a) as [H _]. destruct (C64_cursor_roundtrip b) as [H' _]. rewrite E in H. congruence. Qed.
Example C64_ex : b64_encode (B "{}?>~") = B "e30_Pn4" /\ b64_decode (B "e30/Pn4") = None /\ b64_decode (B "e30_P") = None. Proof. repeat split. Qed.

(** ** C93 *)
Theorem C93_paged_name_refuted : forall mm q v, exists l1 l2, Forall call_ok l1 /\ Forall call_ok l2 /\
  name_of mm (run mm q l1) = name_of mm (run mm q l2) /\ length (qb_args (run mm q l1)) <> length (qb_args (run mm q l2)) /\
  qb_limit (run mm q l1) = 0 /\ qb_limit (run mm q l2) = 10 /\ pb_is_set (run mm q l1) 0 = true /\ qb_args (run mm q l1) = [v].
Proof.
  intros mm q v. exists [CSet 0 v], [CSet 0 v; CPage 10 0].
  split; [|split]; [repeat apply Forall_cons; try apply Forall_nil; cbn; unfold uint32_ok; lia..|]. rewrite !name_fresh by reflexivity. repeat split. discriminate.
Qed.
(** Later pages do get another name. *)
Theorem C93_paged_name_partial : forall mm q l lim off, Forall call_ok l -> no_name l -> qb_limit (run mm q l) = 0 -> 0 <= lim < 2 ^ 32 -> 0 < off < 2 ^ 32 ->
  name_of mm (run mm q (l ++ [CPage lim off])) <> name_of mm (run mm q l).
Proof.
  intros mm q l lim off K N L Hl Ho E. assert (K' : Forall call_ok (l ++ [CPage lim off])) by (apply Forall_app; split; [exact K|constructor; [split; unfold uint32_ok; lia|constructor]]).
  assert (N' : no_name (l ++ [CPage lim off])) by (intros X; apply in_app_or in X as [X|[X|[]]]; [exact (N X)|discriminate]).
  destruct (run_null mm q l N) as [_ H1]. destruct (run_null mm q _ N') as [_ H2]. rewrite (name_fresh mm _ H1), (name_fresh mm _ H2) in E.
  apply text_inj in E; [|apply (inv_fields_ok q _ (accepted (l ++ [CPage lim off]))); apply run_inv; exact K'|apply (inv_fields_ok q _ (accepted l)); apply run_inv; exact K].
  destruct E as (_ & _ & _ & _ & E & _). rewrite run_snoc in E. unfold step in E. cbn [try_call] in E. unfold pb_page, check_page in E. rewrite L in E. cbn [Z.ltb Z.compare] in E.
  pose proof (run_inv mm q l K) as I. destruct (i_zero _ _ _ I L) as [Z1 Z2]. unfold kind_of in E. cbn [qb_cursor qb_offset] in E. rewrite Z1, Z2 in E. cbn in E. destruct (0 <? off) eqn:P; [discriminate|]. apply Z.ltb_ge in P. lia.
Qed.

(** ** C94 *)
Theorem C94_name_pure_refuted : exists l, forall mm q, qb_null (run mm q (l ++ [CName])) <> qb_null (run mm q l).
Proof. exists [CNull [B "b"; B "a"]]. intros mm q. discriminate. Qed.
Theorem C94_name_pure_partial : forall mm q l, let b := run mm q l in let b' := run mm q (l ++ [CName]) in
  Permutation (qb_null b) (qb_null b') /\ (name_of mm b, qb_args b, qb_flags b, qb_limit b, qb_offset b, qb_cursor b) = (name_of mm b', qb_args b', qb_flags b', qb_limit b', qb_offset b', qb_cursor b') /\
  (forall p, pb_is_set b p = pb_is_set b' p /\ pb_get_enum b p = pb_get_enum b' p).
Proof.
  intros mm q l b b'. assert (N : name_of mm b' = name_of mm b) by (apply (C57_current_partial mm q l)). rewrite N. unfold b', b. rewrite run_snoc. set (c := run mm q l). unfold step. cbn [try_call]. unfold pb_name.
  destruct (is_empty (qb_hash c)); cbn [fst]; [|repeat split; reflexivity]. split; [apply sort_perm|]. split; [reflexivity|]. intros p. split; reflexivity.
Qed.

(** ** C95 *)
(** Cursor paging: rows in strictly increasing key order, each page asks for keys
    above the last key seen. *)
Definition cursor_builder (b : builder) (lim pos c : Z) : builder := match pb_cursor b lim pos (AInt64 c) with Some b' => b' | None => b end.
Theorem C95_cursor_paging : forall R (key : R -> Z) (all : list R) db sql b lim pos c0, cursor_db key all db sql -> Z.of_nat (length all) < 2 ^ 32 ->
  StronglySorted (fun x y => key x < key y) all -> Forall (fun x => c0 < key x) all -> qb_limit b = 0 -> 0 <= lim < 2 ^ 32 -> 0 <= pos <= 63 ->
  let fetch c := snd (query_cursor db sql [QP (cursor_builder b lim pos c)]) in
  (exists ps, follow_cursor key fetch c0 ps) /\ forall ps, follow_cursor key fetch c0 ps -> concat ps = all.
Proof.
  intros R key all db sql b lim pos c0 Hdb Hlen Hs Hc Hb Hlim Hpos fetch. assert (L1 : 1 <= limit_used lim) by (unfold limit_used; destruct (lim =? 0) eqn:E; [lia|apply Z.eqb_neq in E; lia]).
  assert (PS : cpage_spec key all (limit_used lim) fetch).
  { intros c p. unfold fetch, p. apply (query_cursor_spec key all db sql _ (map QV (qb_args b))); try assumption. unfold cursor_builder, pb_cursor, pb_set, check_page. rewrite Hb. cbn [Z.ltb Z.compare].
    destruct (63 <? pos) eqn:E; [apply Z.ltb_lt in E; lia|]. cbn [cursor_args qb_limit qb_offset qb_args]. rewrite !map_app, <- app_assoc. reflexivity. }
  split; [exact (cfollow_exists key all _ fetch L1 Hs PS _ c0 (Nat.le_refl _))|]. intros ps H. rewrite (cfollow_spec key all _ fetch L1 Hs PS c0 ps H). apply filter_all. eapply Forall_impl; [|exact Hc].
  intros x Hx. apply Z.ltb_lt. exact Hx.
Qed.
(** ... and with cursor and limit as the last two arguments. *)
Theorem C95_cursor_paging_args : forall R (key : R -> Z) (all : list R) db sql pre lim c0, cursor_db key all db sql -> Z.of_nat (length all) < 2 ^ 32 ->
  StronglySorted (fun x y => key x < key y) all -> Forall (fun x => c0 < key x) all -> 1 <= lim < 2 ^ 32 ->
  let fetch c := snd (query_cursor db sql (pre ++ [QV (AInt64 c); QV (AUint32 lim)])) in
  (exists ps, follow_cursor key fetch c0 ps) /\ forall ps, follow_cursor key fetch c0 ps -> concat ps = all.
Proof.
  intros R key all db sql pre lim c0 Hdb Hlen Hs Hc Hlim fetch.
  assert (PS : cpage_spec key all lim fetch).
  { intros c p. unfold fetch, p. apply (query_cursor_spec key all db sql _ pre); try assumption.
    assert (L2 : last2 (pre ++ [QV (AInt64 c); QV (AUint32 lim)]) = Some (QV (AInt64 c), QV (AUint32 lim))) by (unfold last2; rewrite rev_app_distr; reflexivity).
    unfold cursor_args. rewrite L2. destruct pre as [|x [|y pre]]; [reflexivity| |]; cbn [app]; [destruct x|destruct x; destruct pre]; reflexivity. }
  split; [exact (cfollow_exists key all _ fetch (proj1 Hlim) Hs PS _ c0 (Nat.le_refl _))|]. intros ps H. rewrite (cfollow_spec key all _ fetch (proj1 Hlim) Hs PS c0 ps H). apply filter_all. eapply Forall_impl; [|exact Hc].
  intros x Hx. apply Z.ltb_lt. exact Hx.
Qed.
Definition sample_cdb (all : list Z) : qdb Z := fun _ args =>
  match rev args with
  | QV (AUint32 lim) :: QV (AInt64 c) :: _ => inl (ok_rows (firstn (Z.to_nat lim) (filter (fun r => c <? r) all)))
  | _ => inr 1
  end.
Example C95_ex_db : forall all sql, cursor_db (fun r => r) all (sample_cdb all) sql.
Proof. intros all sql pre c lim. unfold sample_cdb. rewrite rev_app_distr. reflexivity. Qed.

Example C95_args_ex : forall sql, exists ps, follow_cursor (fun r => r) (fun c => snd (query_cursor (sample_cdb [1; 2; 3]) sql [QV (AInt64 c); QV (AUint32 2)])) 0 ps /\ ps = [[1; 2]; [3]].
Proof. intros sql. eexists. split; [|reflexivity]. apply (fc_more _ _ 0 [1] 2); [reflexivity|]. apply fc_last. reflexivity. Qed.

(** ** C96 *)
Theorem C96_cursor_canonical_refuted : exists s b, b64_decode s = Some b /\ b64_encode b <> s /\ ~ In (ascii_of_nat 10) s /\ length s = length (b64_encode b).
Proof. exists (B "QR"), (B "A"). repeat split; [discriminate|]. intros X. cbn in X. repeat (destruct X as [X|X]; [discriminate|]). exact X. Qed.
(** Decoding always yields bytes that re-encode to a text with the same meaning. *)
Theorem C96_cursor_canonical_partial : forall s b, b64_decode s = Some b -> b64_decode (b64_encode b) = b64_decode s.
Proof. intros s b H. rewrite H. apply C64_cursor_roundtrip. Qed.

(** ** C97 *)
(** The database receives the text unchanged and exactly the builder's arguments
    (or the arguments given), once. *)
Theorem C97_arguments : forall R (db : qdb R) sql b args, (2 <= length args)%nat ->
  (exists t, fst (query_paged db sql [QP b]) = QQuery sql (map QV (qb_args b)) :: t) /\ (exists t, fst (query_cursor db sql [QP b]) = QQuery sql (map QV (qb_args b)) :: t) /\
  (exists t, fst (query_all db sql [QP b]) = QQuery sql (map QV (qb_args b)) :: t) /\ (exists t, fst (query_all db sql args) = QQuery sql args :: t) /\
  (snd (query_paged db sql args) <> RPanic \/ fst (query_paged db sql args) <> [] -> exists t, fst (query_paged db sql args) = QQuery sql args :: t).
Proof.
  intros R db sql b args Hlen. assert (L : forall a, exists t o, list_query db sql a = (QQuery sql a :: t, o)).
  { intros a. unfold list_query. destruct (db sql a); [destruct (scan_loop 0 _)|]; eexists; eexists; reflexivity. }
  assert (Two : forall X (f : builder -> X) (g : X), match args with [QP b0] => f b0 | _ => g end = g) by (intros X f g; destruct args as [|[] [|]]; cbn in Hlen; try lia; reflexivity).
  repeat split.
  - unfold query_paged. cbn [page_args]. destruct (L (map QV (qb_args b))) as (t & o & ->). eexists. reflexivity.
  - unfold query_cursor. cbn [cursor_args]. destruct (L (map QV (qb_args b))) as (t & o & ->). eexists. reflexivity.
  - unfold query_all. destruct (L (map QV (qb_args b))) as (t & o & ->). eexists. reflexivity.
  - unfold query_all. rewrite (Two _ (fun b0 => map QV (qb_args b0)) args). destruct (L args) as (t & o & ->). eexists. reflexivity.
  - intros H. unfold query_paged in *. destruct (page_args args) as [[[lim off] a]|] eqn:E; [|destruct H as [H|H]; exfalso; apply H; reflexivity].
    assert (a = args). { unfold page_args in E. destruct args as [|x [|y r]]; cbn in Hlen; try lia. destruct x; (destruct (last2 _) as [[u w]|]; [|discriminate]; destruct (qa_page_param u); [|discriminate]; destruct (qa_page_param w); [|discriminate]; injection E as _ _ <-; reflexivity). }
    subst a. destruct (L args) as (t & o & ->). eexists. reflexivity.
Qed.

(** ** Exact statements of what holds of refuted properties *)
(** C56: two sets of null columns share a name exactly when both are empty, or
    neither is and the sums of the concatenated sorted columns agree. *)
Theorem C56_exact_partial : forall mm q c1 c2, name_of mm (run mm q [CNull c1]) = name_of mm (run mm q [CNull c2]) <->
  (c1 = [] /\ c2 = []) \/ (c1 <> [] /\ c2 <> [] /\ u64 (mm (concat (sort_strings c1))) = u64 (mm (concat (sort_strings c2)))).
Proof.
  intros mm q c1 c2. assert (F : forall c, fields_ok (run mm q [CNull c])) by (intros c; split; [cbn; lia|split; constructor]).
  rewrite !name_fresh by reflexivity. rewrite text_inj by apply F. cbn [run fold_left step try_call pb_null qb_null qb_name qb_pos qb_enums qb_flags new_params]. unfold null_toks.
  destruct c1 as [|x1 c1], c2 as [|x2 c2]; cbn [is_empty].
  - split; [intros _; left; split; reflexivity|intros _; repeat split].
  - split; [intros (_ & _ & _ & _ & _ & E); discriminate|intros [[_ E]|[E _]]; [discriminate|contradiction]].
  - split; [intros (_ & _ & _ & _ & _ & E); discriminate|intros [[E _]|[_ [E _]]]; [discriminate|contradiction]].
  - split.
    + intros (_ & _ & _ & _ & _ & E). right. split; [discriminate|]. split; [discriminate|]. injection E as E. apply fmt_uint_inj in E; [exact E|lia|apply u64_range|apply u64_range].
    + intros [[E _]|(_ & _ & E)]; [discriminate|]. rewrite E. repeat split.
Qed.
(** C57: once Name has been called, the name stays what it was until Reset. *)
Theorem C57_frozen_partial : forall mm q l l2, ~ In CReset l2 -> name_of mm (run mm q (l ++ CName :: l2)) = name_of mm (run mm q l).
Proof.
  intros mm q l l2 N. assert (G : qb_hash (run mm q (l ++ CName :: l2)) = name_of mm (run mm q l) /\ name_of mm (run mm q l) <> []).
  { induction l2 as [|c l2 IH] using rev_ind.
    - rewrite run_snoc. unfold step. cbn [try_call]. set (b := run mm q l). unfold name_of, pb_name. destruct (qb_hash b) as [|x s] eqn:E; cbn [is_empty fst snd].
      + split; [reflexivity|]. unfold pb_text; intros X; apply app_eq_nil in X as [_ X]; discriminate.
      + rewrite E. split; [reflexivity|discriminate].
    - destruct IH as [H1 H2]; [intros X; apply N, in_or_app; left; exact X|]. split; [|exact H2]. rewrite app_comm_cons, app_assoc, run_snoc. rewrite <- H1 in H2 |- *. set (b := run mm q (l ++ CName :: l2)) in *. unfold step.
      destruct c as [p v|p v|vs|lim o|lim p v|fs|cs| |]; cbn [try_call]; try reflexivity.
      + unfold pb_set. destruct (63 <? p); [reflexivity|]. destruct (check_page b); reflexivity.
      + unfold pb_enum. destruct (63 <? p); [reflexivity|]. destruct (check_page b); reflexivity.
      + unfold pb_add. destruct (check_page b); reflexivity.
      + unfold pb_page. destruct (check_page b); reflexivity.
      + unfold pb_cursor, pb_set. destruct (63 <? p); [reflexivity|]. destruct (check_page b); reflexivity.
      + unfold pb_name. destruct (qb_hash b) eqn:X; [congruence|]. cbn [is_empty fst]. exact X.
      + exfalso. apply N, in_or_app. right. left. reflexivity. }
  destruct G as [G1 G2]. unfold name_of at 1, pb_name. rewrite G1. destruct (name_of mm (run mm q l)); [congruence|reflexivity].
Qed.
Example C57_frozen_ex : forall mm, name_of mm (run mm (B "q") [CSet 1 (AInt 5); CName; CEnum 2 3; CPage 10 20]) = name_of mm (run mm (B "q") [CSet 1 (AInt 5)]).
Proof. reflexivity. Qed.
(** C59: what Reset leaves behind is the null columns and nothing else: the
    builder is as new exactly when the last SetNullColums was empty. *)
Lemma nulls_empty mm q l : qb_null (run mm q l) = [] <-> nulls_used l = [].
Proof.
  assert (SE : forall x, sort_strings x = [] <-> x = []).
  { intros x. split; [|intros ->; reflexivity]. destruct x as [|a x]; [reflexivity|]. unfold sort_strings. cbn [fold_right]. destruct (fold_right insert_key [] x) as [|y r]; cbn [insert_key]; [discriminate|]. destruct (_ : bool); discriminate. }
  induction l as [|c l IH] using rev_ind; [split; reflexivity|]. rewrite run_snoc. unfold nulls_used. rewrite fold_left_app. cbn [fold_left]. fold (nulls_used l). set (b := run mm q l) in *. unfold step.
  destruct c as [p v|p v|vs|lim o|lim p v|fs|cs| |]; cbn [try_call nulls_of]; try exact IH.
  - unfold pb_set. destruct (63 <? p); [exact IH|]. destruct (check_page b); exact IH.
  - unfold pb_enum. destruct (63 <? p); [exact IH|]. destruct (check_page b); exact IH.
  - unfold pb_add. destruct (check_page b); exact IH.
  - unfold pb_page. destruct (check_page b); exact IH.
  - unfold pb_cursor, pb_set. destruct (63 <? p); [exact IH|]. destruct (check_page b); exact IH.
  - cbn. split; intros H; exact H.
  - unfold pb_name. destruct (is_empty (qb_hash b)); cbn [fst qb_null]; [rewrite SE|]; exact IH.
Qed.
Theorem C59_exact_partial : forall mm q l, Forall call_ok l ->
  (same_view mm (run mm q (l ++ [CReset])) (new_params q) <-> nulls_used l = []).
Proof.
  intros mm q l K. rewrite run_snoc. unfold step. cbn [try_call]. rewrite <- (nulls_empty mm q l). split.
  - intros (_ & _ & _ & E & _). exact E.
  - intros E. unfold pb_reset. rewrite E, (i_name _ _ _ (run_inv mm q l K)). repeat split.
Qed.
Example C59_exact_ex : nulls_used [CNull [B "a"]; CSet 1 (AInt 2); CName; CNull []] = [] /\ nulls_used [CNull []; CReset; CNull [B "a"]] <> []. Proof. split; [reflexivity|discriminate]. Qed.
(** C62: a list is returned exactly when every row delivered was scanned,
    whatever error ended the rows. *)
Theorem C62_exact_partial : forall R (db : qdb R) sql args l, snd (list_query db sql args) = ROk l <-> exists src, db sql args = inl src /\ src_rows src = map SRow l.
Proof.
  intros R db sql args l. split; [apply C62_midway_partial|]. intros (src & H1 & H2). unfold list_query. rewrite H1, H2. destruct (scan_loop_ok l 0) as (t & T & _). rewrite T. reflexivity.
Qed.
(** C93: paging keeps the name exactly on the first page. *)
Theorem C93_exact_partial : forall mm q l lim off, Forall call_ok l -> no_name l -> qb_limit (run mm q l) = 0 -> 0 <= lim < 2 ^ 32 -> 0 <= off < 2 ^ 32 ->
  (name_of mm (run mm q (l ++ [CPage lim off])) = name_of mm (run mm q l) <-> off = 0).
Proof.
  intros mm q l lim off K N L Hl Ho. split.
  - intros E. destruct (Z.eq_dec off 0) as [->|P]; [reflexivity|]. exfalso. exact (C93_paged_name_partial mm q l lim off K N L Hl ltac:(lia) E).
  - intros ->. assert (N' : no_name (l ++ [CPage lim 0])) by (intros X; apply in_app_or in X as [X|[X|[]]]; [exact (N X)|discriminate]).
    destruct (run_null mm q l N) as [_ H1]. destruct (run_null mm q _ N') as [_ H2]. rewrite (name_fresh mm _ H1), (name_fresh mm _ H2). rewrite run_snoc. unfold step. cbn [try_call]. unfold pb_page, check_page. rewrite L. cbn [Z.ltb Z.compare].
    pose proof (run_inv mm q l K) as I. destruct (i_zero _ _ _ I L) as [Z1 Z2]. unfold pb_text. cbn [qb_name qb_pos qb_enums qb_flags qb_cursor qb_offset qb_null]. rewrite Z1, Z2. reflexivity.
Qed.


(** *** C96, exactly *)
(** A text is the spelling EncodeCursor writes iff it has no new lines and its last
    character has no unused bits set. *)
Theorem C96_exact_partial : forall s b, b64_decode s = Some b -> (b64_encode b = s <-> Forall (fun c => not_newline c = true) s /\ canonical_end s).
Proof.
  intros s b H. unfold b64_decode in H. destruct (b64_vals (filter not_newline s)) as [l|] eqn:E; [|discriminate].
  assert (F : Forall (fun c => not_newline c = true) s -> filter not_newline s = s).
  { induction s as [|c s IH]; [reflexivity|]. clear. intros A. induction A as [|x r Hx A IH]; [reflexivity|]. cbn. rewrite Hx, IH. reflexivity. }
  split.
  - intros Q. assert (A : Forall (fun c => not_newline c = true) s).
    { rewrite <- Q. destruct (C64_cursor_roundtrip b) as (_ & U & _). revert U. apply Forall_impl. intros c U. unfold not_newline. unfold url_char in U.
      destruct (nat_of_ascii c =? 10)%nat eqn:E1; [apply Nat.eqb_eq in E1; rewrite <- (ascii_nat_embedding c), E1 in U; discriminate|].
      destruct (nat_of_ascii c =? 13)%nat eqn:E2; [apply Nat.eqb_eq in E2; rewrite <- (ascii_nat_embedding c), E2 in U; discriminate|]. reflexivity. }
    split; [exact A|]. rewrite (F A) in E. apply (b64_spelling (length s) s l b (Nat.le_refl _) E H). exact Q.
  - intros [A C]. rewrite (F A) in E. apply (b64_spelling (length s) s l b (Nat.le_refl _) E H). exact C.
Qed.
(** So, without new lines, a cursor whose bytes fill whole groups has one spelling. *)
Example C96_spellings : canonical_end (B "QQ") /\ ~ canonical_end (B "QR") /\ canonical_end (B "QUI") /\ ~ canonical_end (B "QUJ") /\ canonical_end (B "QUJD").
Proof. cbn. repeat split; try (intros X; repeat (destruct X as [X|X]; [discriminate|]); exact X); auto 20. Qed.

(** C97: once, whatever the arguments and the database do: either the call
    panics before any query, or its effects are one query - with the text given
    and the builder's arguments, or else the arguments given - followed by row
    scans and at most one Close. *)
Definition sent_args (args : list qarg) : list qarg := match args with [QP b] => map QV (qb_args b) | _ => args end.
Definition is_scan (e : qevent) : bool := match e with QScan _ => true | _ => false end.
Definition one_query (sql : bytes) (args : list qarg) (t : list qevent) : Prop :=
  exists scans closed, t = QQuery sql args :: scans ++ closed /\ forallb is_scan scans = true /\ (closed = [] \/ closed = [QClose]).
Theorem C97_once : forall R (db : qdb R) sql args,
  one_query sql args (fst (list_query db sql args)) /\
  one_query sql (sent_args args) (fst (query_all db sql args)) /\
  (query_paged db sql args = ([], RPanic) \/ one_query sql (sent_args args) (fst (query_paged db sql args))) /\
  (query_cursor db sql args = ([], RPanic) \/ one_query sql (sent_args args) (fst (query_cursor db sql args))).
Proof.
  intros R db sql args. assert (S : forall rows n, forallb is_scan (fst (@scan_loop R n rows)) = true).
  { induction rows as [|[] rows IH]; intros n; cbn [scan_loop]; [reflexivity| |reflexivity|reflexivity].
    specialize (IH (S n)). destruct (scan_loop (S n) rows); cbn in *. exact IH. }
  assert (L : forall a, one_query sql a (fst (list_query db sql a))).
  { intros a. unfold list_query, one_query. destruct (db sql a) as [src|e].
    - specialize (S (src_rows src) 0%nat). destruct (scan_loop 0 (src_rows src)) as [t o]. exists t, [QClose]. cbn in *. auto.
    - exists [], []. cbn. auto. }
  split; [apply L|]. split.
  { unfold query_all. fold (sent_args args). specialize (L (sent_args args)). destruct (list_query db sql (sent_args args)). exact L. }
  split.
  - unfold query_paged. destruct (page_args args) as [[[lim off] a]|] eqn:E; [right|left; reflexivity].
    assert (a = sent_args args). { unfold page_args in E. destruct args as [|x [|y r]]; [injection E as _ _ <-; reflexivity|destruct x; injection E as _ _ <-; reflexivity|].
      destruct x; (destruct (last2 _) as [[u w]|]; [|discriminate]; destruct (qa_page_param u); [|discriminate]; destruct (qa_page_param w); [|discriminate]; injection E as _ _ <-; reflexivity). }
    subst a. specialize (L (sent_args args)). destruct (list_query db sql (sent_args args)). exact L.
  - unfold query_cursor. destruct (cursor_args args) as [[lim a]|] eqn:E; [right|left; reflexivity].
    assert (a = sent_args args). { unfold cursor_args in E. destruct args as [|x [|y r]]; [injection E as _ <-; reflexivity|destruct x; injection E as _ <-; reflexivity|].
      destruct x; (destruct (last2 _) as [[u w]|]; [|discriminate]; destruct (qa_page_param w); [|discriminate]; injection E as _ <-; reflexivity). }
    subst a. specialize (L (sent_args args)). destruct (list_query db sql (sent_args args)). exact L.
Qed.
(** The panic before any query: exactly when, with two arguments or more, the
    last two (for cursors: the last) are not page parameters. *)
Definition is_page (a : qarg) : Prop := exists v, a = QV v /\ page_param v <> None.
Theorem C97_panics_before : forall R (db : qdb R) sql pre a b, 
  (query_paged db sql (pre ++ [a; b]) = ([], RPanic) <-> ~ (is_page a /\ is_page b)) /\
  (query_cursor db sql (pre ++ [a; b]) = ([], RPanic) <-> ~ is_page b).
Proof.
  intros R db sql pre a b.
  assert (P : forall x, is_page x <-> qa_page_param x <> None).
  { intros [q|v]; split; cbn.
    - intros (v & H & _). discriminate.
    - intros H. contradiction.
    - intros (v' & H & Hv). injection H as <-. exact Hv.
    - intros H. exists v. auto. }
  assert (L : last2 (pre ++ [a; b]) = Some (a, b)). { unfold last2. rewrite rev_app_distr. reflexivity. }
  assert (D : exists x y r, pre ++ [a; b] = x :: y :: r) by (destruct pre as [|x [|y r]]; cbn; eauto).
  assert (Q : forall ar, fst (list_query db sql ar) <> []). { intros ar. unfold list_query. destruct (db sql ar); [destruct (scan_loop _ _)|]; discriminate. }
  rewrite !P. destruct D as (x & y & r & D). rewrite D in *. split.
  - unfold query_paged. replace (page_args (x :: y :: r)) with (match qa_page_param a, qa_page_param b with Some l, Some o => Some (l, o, x :: y :: r) | _, _ => None end)
      by (unfold page_args; rewrite L; destruct x; reflexivity).
    specialize (Q (x :: y :: r)). destruct (qa_page_param a), (qa_page_param b); try (split; [intros _ [? ?]; congruence|reflexivity]).
    destruct (list_query db sql (x :: y :: r)) as [t o]. cbn in Q. split; [intros H; injection H as -> _; congruence|intros H; exfalso; apply H; split; discriminate].
  - unfold query_cursor. replace (cursor_args (x :: y :: r)) with (match qa_page_param b with Some l => Some (l, x :: y :: r) | None => None end)
      by (unfold cursor_args; rewrite L; destruct x; reflexivity).
    specialize (Q (x :: y :: r)). destruct (qa_page_param b); try (split; [intros _ ?; congruence|reflexivity]).
    destruct (list_query db sql (x :: y :: r)) as [t o]. cbn in Q. split; [intros H; injection H as -> _; congruence|intros H; exfalso; apply H; discriminate].
Qed.
Example C97_once_ex : is_page (QV (AInt 3)) /\ ~ is_page (QV (AStr (B "x"))) /\
  fst (query_cursor (fun _ _ => inl (mkSrc [SRow 1; SFail 4; SRow 2] None)) (B "q") [QV (AStr (B "x")); QV (AInt 3)]) =
    [QQuery (B "q") [QV (AStr (B "x")); QV (AInt 3)]; QScan 0; QScan 1; QClose].
Proof. split; [exists (AInt 3); split; [reflexivity|discriminate]|]. split; [intros (v & H & Hv); injection H as <-; apply Hv; reflexivity|reflexivity]. Qed.

(** Line ends in a cursor text do not matter, wherever they are; without them the text
    is accepted exactly when it is of the alphabet and of a length that can be. *)
Theorem C64_line_ends : forall a b, b64_decode (a ++ ascii_of_nat 10 :: b) = b64_decode (a ++ b) /\ b64_decode (a ++ ascii_of_nat 13 :: b) = b64_decode (a ++ b).
Proof. intros a b. unfold b64_decode. rewrite !filter_app. split; reflexivity. Qed.
Theorem C64_alphabet : forall s, ~ In (ascii_of_nat 10) s -> ~ In (ascii_of_nat 13) s ->
  (b64_decode s <> None <-> Forall (fun c => In c (B "ABCDEFGHIJKLMNOPQRSTUVWXYZabcdefghijklmnopqrstuvwxyz0123456789-_")) s /\ (length s mod 4)%nat <> 1%nat).
Proof.
  intros s N1 N2. rewrite C64_accepts. assert (F : filter not_newline s = s).
  { apply filter_all. apply Forall_forall. intros c I. unfold not_newline. apply negb_true_iff, orb_false_iff. split; apply Nat.eqb_neq; intros E; apply (f_equal ascii_of_nat) in E; rewrite ascii_nat_embedding in E; subst c; contradiction. }
  rewrite F. assert (K : forall c, url_char c = true <-> In c (B "ABCDEFGHIJKLMNOPQRSTUVWXYZabcdefghijklmnopqrstuvwxyz0123456789-_")).
  { intros c. assert (X : Bool.eqb (url_char c) (in_set (B "ABCDEFGHIJKLMNOPQRSTUVWXYZabcdefghijklmnopqrstuvwxyz0123456789-_") c) = true).
    { assert (C : forallb (fun n => Bool.eqb (url_char (ascii_of_nat n)) (in_set (B "ABCDEFGHIJKLMNOPQRSTUVWXYZabcdefghijklmnopqrstuvwxyz0123456789-_") (ascii_of_nat n))) (seq 0 256) = true) by (vm_compute; reflexivity).
      rewrite forallb_forall in C. specialize (C (nat_of_ascii c) ltac:(apply in_seq; pose proof (nat_ascii_bounded c); lia)). rewrite ascii_nat_embedding in C. exact C. }
    apply eqb_prop in X. rewrite X. unfold in_set. rewrite existsb_exists. split; [intros (d & I & E); destruct (ascii_dec c d) as [->|]; [exact I|discriminate]|]. intros I. exists c. split; [exact I|]. destruct (ascii_dec c c); congruence. }
  split; intros [H L]; (split; [|exact L]); (eapply Forall_impl; [|exact H]); intros c; apply K.
Qed.

(** What Name() changes, exactly: it sorts the NULL columns; columns that are in order
    stay as they are, and a second call changes nothing at all. *)
Theorem C94_exact_partial : forall mm q l, let b := run mm q l in let b' := run mm q (l ++ [CName]) in
  (qb_null b' = qb_null b \/ StronglySorted (fun x y => bltb y x = false) (qb_null b') /\ Permutation (qb_null b) (qb_null b')) /\
  (StronglySorted (fun x y => bltb y x = false) (qb_null b) -> qb_null b' = qb_null b) /\ run mm q (l ++ [CName; CName]) = b'.
Proof.
  intros mm q l b b'. unfold b', b. change (l ++ [CName; CName]) with (l ++ [CName] ++ [CName]). rewrite app_assoc, !run_snoc. set (c := run mm q l). unfold step. cbn [try_call]. unfold pb_name.
  destruct (is_empty (qb_hash c)) eqn:E; cbn [fst qb_hash qb_null].
  - split; [right; split; [apply sort_sorted|apply sort_perm]|]. split; [intros H; symmetry; apply sorted_unique; [exact H|apply sort_sorted|apply sort_perm]|].
    assert (N : is_empty (pb_text mm c) = false). { unfold pb_text. destruct (qb_name c); reflexivity. } rewrite N. reflexivity.
  - split; [left; reflexivity|]. split; [reflexivity|]. rewrite E. reflexivity.
Qed.

(** ** Assumptions *)
Print Assumptions C55_name.
Print Assumptions C56_null_columns_refuted.
Print Assumptions C56_null_columns_partial.
Print Assumptions C57_current_refuted.
Print Assumptions C57_current_partial.
Print Assumptions C58_builder.
Print Assumptions C58_page.
Print Assumptions C58_panics.
Print Assumptions C59_reset_refuted.
Print Assumptions C59_reset_partial.
Print Assumptions C60_paging.
Print Assumptions C60_paging_args.
Print Assumptions C61_no_limit_refuted.
Print Assumptions C61_no_limit_partial.
Print Assumptions C62_midway_refuted.
Print Assumptions C62_midway_partial.
Print Assumptions C62_query_row_partial.
Print Assumptions C63_list_query.
Print Assumptions C63_query_error.
Print Assumptions C64_cursor_roundtrip.
Print Assumptions C64_accepts.
Print Assumptions C64_injective.
Print Assumptions C93_paged_name_refuted.
Print Assumptions C93_paged_name_partial.
Print Assumptions C94_name_pure_refuted.
Print Assumptions C94_name_pure_partial.
Print Assumptions C95_cursor_paging.
Print Assumptions C95_cursor_paging_args.
Print Assumptions C96_cursor_canonical_refuted.
Print Assumptions C96_cursor_canonical_partial.
Print Assumptions C97_arguments.
Print Assumptions C56_exact_partial.
Print Assumptions C57_frozen_partial.
Print Assumptions C59_exact_partial.
Print Assumptions C62_exact_partial.
Print Assumptions C93_exact_partial.
Print Assumptions C96_exact_partial.
Print Assumptions C97_once.
Print Assumptions C97_panics_before.
Print Assumptions C64_line_ends.
Print Assumptions C64_alphabet.
Print Assumptions C94_exact_partial.
