(** Proofs about list queries and cursors. *)
From Verif Require Import GoBase GoBaseFacts TypeModel TypeSpec TypeProofs ParamModel ParamSpec ParamProofs.
From Coq Require Import Permutation Sorted.
Open Scope Z_scope.

(** ** Rows *)
Lemma scan_loop_ok {R} (rs : list R) : forall n, exists t, scan_loop n (map SRow rs) = (t, ROk rs) /\ closes t = O.
Proof.
  induction rs as [|r rs IH]; intros n; [exists []; split; reflexivity|]. cbn [map scan_loop]. destruct (IH (S n)) as (t & -> & C). exists (QScan n :: t). split; [reflexivity|exact C].
Qed.
Lemma scan_loop_stop {R} (rs : list R) rest : forall n,
  (forall e, exists t, scan_loop n (map SRow rs ++ SFail e :: rest) = (t, RErr e)) /\ (exists t, scan_loop n (map SRow rs ++ SPanic :: rest) = (t, RPanic)).
Proof.
  induction rs as [|r rs IH]; intros n; cbn [map app scan_loop].
  - split; [intros e|]; eexists; reflexivity.
  - destruct (IH (S n)) as [I1 (t & I2)]. split.
    + intros e. destruct (I1 e) as (t' & ->). eexists. reflexivity.
    + rewrite I2. eexists. reflexivity.
Qed.
Lemma scan_loop_closes {R} (rows : list (scan R)) : forall n, closes (fst (scan_loop n rows)) = O.
Proof.
  induction rows as [|[r|e|] rows IH]; intros n; try reflexivity. cbn [scan_loop]. specialize (IH (S n)). destruct (scan_loop (S n) rows) as [t o]. exact IH.
Qed.
Lemma scan_split {R} (rows : list (scan R)) : (exists rs, rows = map SRow rs) \/ (exists rs e rest, rows = map SRow rs ++ SFail e :: rest) \/ (exists rs rest, rows = map SRow rs ++ SPanic :: rest).
Proof.
  induction rows as [|[r|e|] rows IH].
  - left. exists []. reflexivity.
  - destruct IH as [(rs & ->)|[(rs & e & rest & ->)|(rs & rest & ->)]]; [left; exists (r :: rs)|right; left; exists (r :: rs), e, rest|right; right; exists (r :: rs), rest]; reflexivity.
  - right. left. exists [], e, rows. reflexivity.
  - right. right. exists [], rows. reflexivity.
Qed.
Lemma closes_app a b : closes (a ++ b) = (closes a + closes b)%nat.
Proof. unfold closes. rewrite filter_app, app_length. reflexivity. Qed.
Lemma list_query_ok {R} (db : qdb R) sql args l : db sql args = inl (ok_rows l) -> snd (list_query db sql args) = ROk l.
Proof. intros H. unfold list_query. rewrite H. cbn [src_rows ok_rows]. destruct (scan_loop_ok l 0) as (t & -> & _). reflexivity. Qed.

(** ** Paging by offset *)
Lemma page_args_two pre a b l o : qa_page_param a = Some l -> qa_page_param b = Some o -> page_args (pre ++ [a; b]) = Some (l, o, pre ++ [a; b]).
Proof.
  intros Ha Hb. assert (L : last2 (pre ++ [a; b]) = Some (a, b)) by (unfold last2; rewrite rev_app_distr; reflexivity).
  unfold page_args. destruct (pre ++ [a; b]) as [|x [|y r]] eqn:E.
  - destruct pre; discriminate.
  - exfalso. apply (f_equal (@length qarg)) in E. rewrite app_length in E. cbn in E. lia.
  - rewrite L. destruct x; rewrite Ha, Hb; reflexivity.
Qed.
Lemma cursor_args_two pre a b l : qa_page_param b = Some l -> cursor_args (pre ++ [a; b]) = Some (l, pre ++ [a; b]).
Proof.
  intros Hb. assert (L : last2 (pre ++ [a; b]) = Some (a, b)) by (unfold last2; rewrite rev_app_distr; reflexivity).
  unfold cursor_args. destruct (pre ++ [a; b]) as [|x [|y r]] eqn:E.
  - destruct pre; discriminate.
  - exfalso. apply (f_equal (@length qarg)) in E. rewrite app_length in E. cbn in E. lia.
  - rewrite L. destruct x; rewrite Hb; reflexivity.
Qed.
(** One page. *)
Definition page_spec {R} (all : list R) (lim : Z) (fetch : Z -> outcome (list R * bool * Z)) : Prop :=
  forall off, 0 <= off <= Z.of_nat (length all) ->
    let p := firstn (Z.to_nat lim) (skipn (Z.to_nat off) all) in
    fetch off = ROk (p, lim <=? Z.of_nat (length p), if lim <=? Z.of_nat (length p) then off + Z.of_nat (length p) else 0).
Lemma query_paged_spec {R} (all : list R) db sql args pre lim off : offset_db all db sql -> Z.of_nat (length all) < 2 ^ 32 -> 0 <= off <= Z.of_nat (length all) ->
  page_args args = Some (lim, off, pre ++ [QV (AUint32 lim); QV (AUint32 off)]) ->
  let p := firstn (Z.to_nat lim) (skipn (Z.to_nat off) all) in
  snd (query_paged db sql args) = ROk (p, lim <=? Z.of_nat (length p), if lim <=? Z.of_nat (length p) then off + Z.of_nat (length p) else 0).
Proof.
  intros Hdb Hlen Ho Ha p. unfold query_paged. rewrite Ha. pose proof (list_query_ok db sql _ _ (Hdb pre lim off)) as L.
  destruct (list_query db sql (pre ++ [QV (AUint32 lim); QV (AUint32 off)])) as [t o]. cbn [snd] in *. rewrite L. fold p.
  assert (Hp : off + Z.of_nat (length p) <= Z.of_nat (length all)). { unfold p. rewrite firstn_length, skipn_length. lia. }
  unfold u32. rewrite (wrap_u_id 32 (Z.of_nat (length p))) by lia. rewrite wrap_u_id by lia. reflexivity.
Qed.
Lemma skipn_add {A} b : forall a (l : list A), skipn a (skipn b l) = skipn (a + b) l.
Proof. induction b as [|b IH]; intros a l; [rewrite Nat.add_0_r; reflexivity|]. rewrite Nat.add_succ_r. destruct l as [|x l]; [rewrite !skipn_nil; reflexivity|]. apply IH. Qed.
Lemma follow_spec {R} (all : list R) lim fetch : 1 <= lim -> page_spec all lim fetch -> forall off ps, follow fetch off ps -> 0 <= off <= Z.of_nat (length all) ->
  concat ps = skipn (Z.to_nat off) all /\ Forall (fun p => Z.of_nat (length p) <= lim) ps /\ Z.of_nat (length ps) = (Z.of_nat (length all) - off) / lim + 1.
Proof.
  intros Hlim Hf off ps H. induction H as [off l n E|off l n ps E H IH]; intros Ho; rewrite (Hf off Ho) in E; injection E as E1 E2 E3; rewrite E1 in *.
  - apply Z.leb_gt in E2. assert (Hl : (length l = length all - Z.to_nat off)%nat). { rewrite <- E1, firstn_length, skipn_length in *. lia. }
    split; [|split; [constructor; [lia|constructor]|]].
    + cbn. rewrite app_nil_r. rewrite <- E1. apply firstn_all2. rewrite skipn_length. rewrite <- E1 in E2. rewrite firstn_length, skipn_length in *. lia.
    + cbn [length]. rewrite Z.div_small by lia. reflexivity.
  - rewrite E2 in E3. apply Z.leb_le in E2. assert (Hl : Z.of_nat (length l) = lim /\ off + lim <= Z.of_nat (length all)). { rewrite <- E1, firstn_length, skipn_length in *. lia. }
    destruct Hl as [Hl1 Hl2]. destruct (IH ltac:(lia)) as (I1 & I2 & I3). split; [|split].
    + cbn [concat]. rewrite I1, <- E3, <- E1. replace (Z.to_nat (off + Z.of_nat (length (firstn (Z.to_nat lim) (skipn (Z.to_nat off) all))))) with (Z.to_nat lim + Z.to_nat off)%nat by (rewrite E1; lia).
      rewrite <- skipn_add. apply firstn_skipn.
    + constructor; [lia|exact I2].
    + cbn [length]. rewrite Nat2Z.inj_succ, I3, <- E3, Hl1. replace (Z.of_nat (length all) - off) with (Z.of_nat (length all) - (off + lim) + 1 * lim) by lia. rewrite Z.div_add by lia. lia.
Qed.
Lemma follow_exists {R} (all : list R) lim fetch : 1 <= lim -> page_spec all lim fetch -> forall k off, (Z.to_nat (Z.of_nat (length all) - off) <= k)%nat -> 0 <= off <= Z.of_nat (length all) -> exists ps, follow fetch off ps.
Proof.
  intros Hlim Hf. induction k as [|k IH]; intros off Hk Ho; pose proof (Hf off Ho) as E; cbv zeta in E; set (p := firstn (Z.to_nat lim) (skipn (Z.to_nat off) all)) in E;
    assert (Hp : Z.of_nat (length p) <= Z.of_nat (length all) - off) by (unfold p; rewrite firstn_length, skipn_length; lia);
    destruct (lim <=? Z.of_nat (length p)) eqn:L; try (exists [p]; apply (follow_last _ _ _ _ E)); apply Z.leb_le in L; [lia|].
  destruct (IH (off + Z.of_nat (length p)) ltac:(lia) ltac:(lia)) as [ps Hps]. exists (p :: ps). exact (follow_more _ _ _ _ _ E Hps).
Qed.

(** ** Paging by cursor *)
Definition key_lt {R} (key : R -> Z) (a b : R) : Prop := key a < key b.
Lemma filter_all {A} (f : A -> bool) l : Forall (fun x => f x = true) l -> filter f l = l.
Proof. induction 1 as [|x l H _ IH]; [reflexivity|]. cbn. rewrite H, IH. reflexivity. Qed.
Lemma filter_none {A} (f : A -> bool) l : Forall (fun x => f x = false) l -> filter f l = [].
Proof. induction 1 as [|x l H _ IH]; [reflexivity|]. cbn. rewrite H, IH. reflexivity. Qed.
Lemma filter_len {A} (f : A -> bool) l : (length (filter f l) <= length l)%nat.
Proof. induction l as [|x l IH]; [apply Nat.le_refl|]. cbn. destruct (f x); cbn; lia. Qed.
Lemma filter_sorted {R} (key : R -> Z) (f : R -> bool) l : StronglySorted (key_lt key) l -> StronglySorted (key_lt key) (filter f l).
Proof.
  induction 1 as [|x l H IH F]; [constructor|]. cbn. destruct (f x); [|exact IH]. constructor; [exact IH|]. rewrite Forall_forall in *. intros y Hy. apply filter_In in Hy as [Hy _]. exact (F y Hy).
Qed.
Lemma sorted_split {R} (key : R -> Z) l r rest : StronglySorted (key_lt key) (l ++ r :: rest) -> Forall (fun x => key x < key r) l /\ Forall (fun x => key r < key x) rest.
Proof.
  induction l as [|x l IH]; cbn [app]; intros H; inversion H as [|? ? H1 H2]; subst.
  - split; [constructor|exact H2].
  - destruct (IH H1) as [I1 I2]. split; [|exact I2]. constructor; [|exact I1]. rewrite Forall_forall in H2. apply H2. apply in_or_app. right. left. reflexivity.
Qed.
Lemma filter_filter {A} (f g : A -> bool) l : filter f (filter g l) = filter (fun x => g x && f x) l.
Proof. induction l as [|x l IH]; [reflexivity|]. cbn. destruct (g x); cbn; [destruct (f x); rewrite IH; reflexivity|exact IH]. Qed.
Lemma after_key {R} (key : R -> Z) (all : list R) c l r rest : StronglySorted (key_lt key) all -> filter (fun x => c <? key x) all = l ++ r :: rest ->
  c < key r /\ filter (fun x => key r <? key x) all = rest.
Proof.
  intros S E. assert (Hr : c < key r). { assert (In r (filter (fun x => c <? key x) all)) by (rewrite E; apply in_or_app; right; left; reflexivity). apply filter_In in H as [_ H]. apply Z.ltb_lt in H. exact H. }
  split; [exact Hr|]. pose proof (filter_sorted key (fun x => c <? key x) all S) as SF. rewrite E in SF. destruct (sorted_split key l r rest SF) as [H1 H2].
  transitivity (filter (fun x => key r <? key x) (filter (fun x => c <? key x) all)).
  - rewrite filter_filter. apply filter_ext. intros x. destruct (key r <? key x) eqn:K; [apply Z.ltb_lt in K|]; [|rewrite andb_false_r; reflexivity]. rewrite andb_true_r. symmetry. apply Z.ltb_lt. lia.
  - rewrite E, filter_app. cbn [filter]. rewrite Z.ltb_irrefl. rewrite filter_none, filter_all; [reflexivity|..].
    + eapply Forall_impl; [|exact H2]. intros x Hx. apply Z.ltb_lt. exact Hx.
    + eapply Forall_impl; [|exact H1]. intros x Hx. apply Z.ltb_ge. cbn in Hx. lia.
Qed.
Definition cpage_spec {R} (key : R -> Z) (all : list R) (lim : Z) (fetch : Z -> outcome (list R * bool)) : Prop :=
  forall c, let p := firstn (Z.to_nat lim) (filter (fun r => c <? key r) all) in fetch c = ROk (p, lim <=? Z.of_nat (length p)).
Lemma query_cursor_spec {R} (key : R -> Z) (all : list R) db sql args pre lim c : cursor_db key all db sql -> Z.of_nat (length all) < 2 ^ 32 ->
  cursor_args args = Some (lim, pre ++ [QV (AInt64 c); QV (AUint32 lim)]) ->
  let p := firstn (Z.to_nat lim) (filter (fun r => c <? key r) all) in snd (query_cursor db sql args) = ROk (p, lim <=? Z.of_nat (length p)).
Proof.
  intros Hdb Hlen Ha p. unfold query_cursor. rewrite Ha. pose proof (list_query_ok db sql _ _ (Hdb pre c lim)) as L.
  destruct (list_query db sql (pre ++ [QV (AInt64 c); QV (AUint32 lim)])) as [t o]. cbn [snd] in *. rewrite L. fold p.
  assert (Hp : Z.of_nat (length p) <= Z.of_nat (length all)). { unfold p. rewrite firstn_length. pose proof (filter_len (fun r => c <? key r) all). lia. }
  unfold u32. rewrite (wrap_u_id 32 (Z.of_nat (length p))) by lia. reflexivity.
Qed.
Lemma cfollow_spec {R} (key : R -> Z) (all : list R) lim fetch : 1 <= lim -> StronglySorted (key_lt key) all -> cpage_spec key all lim fetch ->
  forall c ps, follow_cursor key fetch c ps -> concat ps = filter (fun r => c <? key r) all.
Proof.
  intros Hlim S Hf c ps H. induction H as [c l E|c l r ps E H IH]; rewrite (Hf c) in E; injection E as E1 E2.
  - rewrite E1 in E2. apply Z.leb_gt in E2. cbn. rewrite app_nil_r. rewrite <- E1. apply firstn_all2. rewrite <- E1 in E2. rewrite firstn_length in E2. lia.
  - pose proof (firstn_skipn (Z.to_nat lim) (filter (fun x => c <? key x) all)) as FS. rewrite E1, <- app_assoc in FS. cbn [app] in FS.
    destruct (after_key key all c _ _ _ S (eq_sym FS)) as [_ A]. cbn [concat]. rewrite IH, A, <- app_assoc. exact FS.
Qed.
Lemma cfollow_exists {R} (key : R -> Z) (all : list R) lim fetch : 1 <= lim -> StronglySorted (key_lt key) all -> cpage_spec key all lim fetch ->
  forall k c, (length (filter (fun r => (c <? key r)%Z) all) <= k)%nat -> exists ps, follow_cursor key fetch c ps.
Proof.
  intros Hlim S Hf. induction k as [|k IH]; intros c Hk; pose proof (Hf c) as E; cbv zeta in E; set (p := firstn (Z.to_nat lim) (filter (fun x => c <? key x) all)) in E;
    assert (Hp : (length p <= length (filter (fun x => (c <? key x)%Z) all))%nat) by (unfold p; rewrite firstn_length; lia);
    destruct (lim <=? Z.of_nat (length p)) eqn:L; try (exists [p]; exact (fc_last _ _ _ _ E)); apply Z.leb_le in L; [lia|].
  assert (N : p <> []) by (intros X; rewrite X in L; cbn in L; lia). destruct (exists_last N) as (l & r & Epr). rewrite Epr in E.
  pose proof (firstn_skipn (Z.to_nat lim) (filter (fun x => c <? key x) all)) as FS. fold p in FS. rewrite Epr, <- app_assoc in FS. cbn [app] in FS.
  destruct (after_key key all c _ _ _ S (eq_sym FS)) as [_ A]. destruct (IH (key r)) as [ps Hps].
  { rewrite A. apply (f_equal (@length R)) in FS. rewrite app_length in FS. cbn [length] in FS. lia. }
  exists ((l ++ [r]) :: ps). exact (fc_more _ _ _ _ _ _ E Hps).
Qed.

(** ** Sorting *)
Lemma insert_perm k l : Permutation (k :: l) (insert_key k l).
Proof. induction l as [|j l IH]; [reflexivity|]. cbn. destruct (bltb j k); [|reflexivity]. rewrite perm_swap. constructor. exact IH. Qed.
Lemma sort_perm l : Permutation l (sort_strings l).
Proof. induction l as [|k l IH]; [reflexivity|]. cbn. rewrite <- insert_perm. constructor. exact IH. Qed.
Definition str_le (a b : bytes) : Prop := bltb b a = false.
Lemma bltb_irrefl a : bltb a a = false.
Proof. induction a as [|x a IH]; [reflexivity|]. cbn [bltb]. rewrite Nat.ltb_irrefl. exact IH. Qed.
Lemma bltb_total a : forall b, bltb a b = false -> bltb b a = false -> a = b.
Proof.
  induction a as [|x a IH]; intros [|y b] H1 H2; try discriminate; [reflexivity|]. cbn [bltb] in *.
  destruct (nat_of_ascii x <? nat_of_ascii y)%nat eqn:E1; [discriminate|]. destruct (nat_of_ascii y <? nat_of_ascii x)%nat eqn:E2; [discriminate|].
  apply Nat.ltb_ge in E1, E2. assert (E : nat_of_ascii x = nat_of_ascii y) by lia. apply (f_equal ascii_of_nat) in E. rewrite !ascii_nat_embedding in E. subst. f_equal. apply IH; assumption.
Qed.
Lemma bltb_trans a : forall b c, bltb a b = true -> bltb b c = true -> bltb a c = true.
Proof.
  induction a as [|x a IH]; intros [|y b] [|z c] H1 H2; try discriminate; [reflexivity|]. cbn [bltb] in *.
  destruct (nat_of_ascii x <? nat_of_ascii y)%nat eqn:E1; [apply Nat.ltb_lt in E1|apply Nat.ltb_ge in E1].
  - destruct (nat_of_ascii y <? nat_of_ascii z)%nat eqn:E2; [apply Nat.ltb_lt in E2|apply Nat.ltb_ge in E2].
    + assert (E3 : (nat_of_ascii x <? nat_of_ascii z)%nat = true) by (apply Nat.ltb_lt; lia). rewrite E3. reflexivity.
    + destruct (nat_of_ascii z <? nat_of_ascii y)%nat eqn:E4; [discriminate|]. apply Nat.ltb_ge in E4.
      assert (E3 : (nat_of_ascii x <? nat_of_ascii z)%nat = true) by (apply Nat.ltb_lt; lia). rewrite E3. reflexivity.
  - destruct (nat_of_ascii y <? nat_of_ascii x)%nat eqn:E5; [discriminate|]. apply Nat.ltb_ge in E5.
    destruct (nat_of_ascii y <? nat_of_ascii z)%nat eqn:E2; [apply Nat.ltb_lt in E2|apply Nat.ltb_ge in E2].
    + assert (E3 : (nat_of_ascii x <? nat_of_ascii z)%nat = true) by (apply Nat.ltb_lt; lia). rewrite E3. reflexivity.
    + destruct (nat_of_ascii z <? nat_of_ascii y)%nat eqn:E4; [discriminate|]. apply Nat.ltb_ge in E4.
      assert (E3 : (nat_of_ascii x <? nat_of_ascii z)%nat = false) by (apply Nat.ltb_ge; lia). assert (E6 : (nat_of_ascii z <? nat_of_ascii x)%nat = false) by (apply Nat.ltb_ge; lia).
      rewrite E3, E6. apply (IH b c); assumption.
Qed.
Lemma bltb_asym a b : bltb a b = true -> bltb b a = false.
Proof. intros H. destruct (bltb b a) eqn:E; [|reflexivity]. pose proof (bltb_trans a b a H E) as X. rewrite bltb_irrefl in X. discriminate. Qed.
Lemma str_le_trans a b c : str_le a b -> str_le b c -> str_le a c.
Proof.
  unfold str_le. intros H1 H2. destruct (bltb c a) eqn:E; [|reflexivity]. destruct (bltb a b) eqn:E1.
  - pose proof (bltb_trans c a b E E1). congruence.
  - rewrite (bltb_total a b E1 H1) in E. congruence.
Qed.
Lemma insert_sorted k l : StronglySorted str_le l -> StronglySorted str_le (insert_key k l).
Proof.
  induction 1 as [|j l H IH F]; [repeat constructor|]. cbn. destruct (bltb j k) eqn:E.
  - constructor; [exact IH|]. rewrite Forall_forall in *. intros y Hy. apply (Permutation_in y (Permutation_sym (insert_perm k l))) in Hy as [<-|Hy]; [apply bltb_asym; exact E|apply F; exact Hy].
  - constructor; [constructor; assumption|]. constructor; [exact E|]. eapply Forall_impl; [|exact F]. intros y Hy. exact (str_le_trans k j y E Hy).
Qed.
Lemma sort_sorted l : StronglySorted str_le (sort_strings l).
Proof. induction l as [|k l IH]; [constructor|]. cbn. apply insert_sorted. exact IH. Qed.
Lemma sorted_unique l : forall l', StronglySorted str_le l -> StronglySorted str_le l' -> Permutation l l' -> l = l'.
Proof.
  induction l as [|x l IH]; intros l' H H' P; [apply Permutation_nil in P; subst; reflexivity|]. destruct l' as [|y l']; [symmetry in P; apply Permutation_nil in P; discriminate|].
  inversion H as [|? ? H1 H2]; inversion H' as [|? ? H1' H2']; subst. assert (E : x = y).
  { assert (Ix : In x (y :: l')) by (apply (Permutation_in x P); left; reflexivity). assert (Iy : In y (x :: l)) by (apply (Permutation_in y (Permutation_sym P)); left; reflexivity).
    destruct Ix as [->|Ix]; [reflexivity|]. destruct Iy as [->|Iy]; [reflexivity|]. rewrite Forall_forall in H2, H2'. apply bltb_total; [exact (H2' x Ix)|exact (H2 y Iy)]. }
  subst y. f_equal. apply IH; [assumption|assumption|exact (Permutation_cons_inv P)].
Qed.
Lemma sort_perm_eq l l' : Permutation l l' -> sort_strings l = sort_strings l'.
Proof. intros P. apply sorted_unique; [apply sort_sorted|apply sort_sorted|]. rewrite <- !sort_perm. exact P. Qed.

(** ** base64 *)
Definition val_ok (n : nat) : bool := match b64_val (b64_char (Z.of_nat n)) with Some v => v =? Z.of_nat n | None => false end.
Lemma b64_val_check : forallb val_ok (seq 0 64) = true.
Proof. vm_compute. reflexivity. Qed.
Lemma b64_val_char n : 0 <= n < 64 -> b64_val (b64_char n) = Some n.
Proof.
  intros H. pose proof b64_val_check as C. rewrite forallb_forall in C. specialize (C (Z.to_nat n) ltac:(apply in_seq; lia)). unfold val_ok in C. rewrite Z2Nat.id in C by lia.
  destruct (b64_val (b64_char n)); [|discriminate]. apply Z.eqb_eq in C. subst. reflexivity.
Qed.
Lemma url_check : forallb (fun n => let c := b64_char (Z.of_nat n) in url_char c && not_newline c) (seq 0 64) = true.
Proof. vm_compute. reflexivity. Qed.
Lemma url_b64 n : 0 <= n < 64 -> url_char (b64_char n) = true /\ not_newline (b64_char n) = true.
Proof.
  intros H. pose proof url_check as C. rewrite forallb_forall in C. specialize (C (Z.to_nat n) ltac:(apply in_seq; lia)). cbv zeta in C. rewrite Z2Nat.id in C by lia. apply andb_true_iff in C. exact C.
Qed.
Lemma b64_val_iff c : b64_val c <> None <-> url_char c = true.
Proof.
  assert (C : forallb (fun n => Bool.eqb (match b64_val (ascii_of_nat n) with Some _ => true | None => false end) (url_char (ascii_of_nat n))) (seq 0 256) = true) by (vm_compute; reflexivity).
  rewrite forallb_forall in C. specialize (C (nat_of_ascii c) ltac:(apply in_seq; pose proof (nat_ascii_bounded c); lia)). rewrite ascii_nat_embedding in C. apply eqb_prop in C. rewrite <- C.
  destruct (b64_val c); split; intros; congruence.
Qed.
Lemma byte_range c : 0 <= byte c < 256. Proof. unfold byte. pose proof (nat_ascii_bounded c). lia. Qed.
Lemma to_byte_byte n c : n mod 256 = byte c -> to_byte n = c.
Proof. intros H. unfold to_byte. rewrite H. unfold byte. rewrite Nat2Z.id. apply ascii_nat_embedding. Qed.
Lemma bytes3_ind (P : bytes -> Prop) : P [] -> (forall a, P [a]) -> (forall a b, P [a; b]) -> (forall a b c r, P r -> P (a :: b :: c :: r)) -> forall s, P s.
Proof.
  intros H0 H1 H2 H3 s. assert (G : forall n s, (length s <= n)%nat -> P s); [|apply (G (length s)); lia].
  induction n as [|n IH]; intros t Ht; [destruct t; [exact H0|cbn in Ht; lia]|]. destruct t as [|a [|b [|c r]]]; [exact H0|apply H1|apply H2|]. apply H3. apply IH. cbn in Ht. lia.
Qed.
Lemma vals_group a b c r v l : v = byte a * 65536 + byte b * 256 + byte c -> b64_vals r = Some l ->
  b64_vals (b64_char (v / 262144) :: b64_char (v / 4096 mod 64) :: b64_char (v / 64 mod 64) :: b64_char (v mod 64) :: r) =
  Some (v / 262144 :: v / 4096 mod 64 :: v / 64 mod 64 :: v mod 64 :: l).
Proof.
  intros E H. pose proof (byte_range a). pose proof (byte_range b). pose proof (byte_range c). cbn [b64_vals].
  rewrite !b64_val_char by (try (apply Z.mod_pos_bound; lia); (split; [apply Z.div_pos; lia|apply Z.div_lt_upper_bound; lia])). rewrite H. reflexivity.
Qed.
Lemma b64_roundtrip s : exists l, b64_vals (b64_encode s) = Some l /\ b64_groups l = Some s.
Proof.
  induction s as [|a|a b|a b c r IH] using bytes3_ind.
  - exists []. split; reflexivity.
  - pose proof (byte_range a). cbn [b64_encode]. eexists. split.
    + cbn [b64_vals]. rewrite !b64_val_char by (try (apply Z.mod_pos_bound; lia); (split; [apply Z.div_pos; lia|apply Z.div_lt_upper_bound; lia])). reflexivity.
    + cbn [b64_groups]. f_equal. f_equal. apply to_byte_byte. Z.div_mod_to_equations. lia.
  - pose proof (byte_range a). pose proof (byte_range b). cbn [b64_encode]. eexists. split.
    + cbn [b64_vals]. rewrite !b64_val_char by (try (apply Z.mod_pos_bound; lia); (split; [apply Z.div_pos; lia|apply Z.div_lt_upper_bound; lia])). reflexivity.
    + cbn [b64_groups]. f_equal. f_equal; [apply to_byte_byte; Z.div_mod_to_equations; lia|]. f_equal. apply to_byte_byte. Z.div_mod_to_equations. lia.
  - destruct IH as (l & I1 & I2). pose proof (byte_range a). pose proof (byte_range b). pose proof (byte_range c). cbn [b64_encode]. eexists. split; [apply (vals_group a b c); [reflexivity|exact I1]|].
    cbn [b64_groups]. rewrite I2. f_equal. f_equal; [apply to_byte_byte; Z.div_mod_to_equations; lia|]. f_equal; [apply to_byte_byte; Z.div_mod_to_equations; lia|]. f_equal. apply to_byte_byte. Z.div_mod_to_equations. lia.
Qed.
Lemma b64_encode_chars s : Forall (fun c => url_char c = true /\ not_newline c = true) (b64_encode s).
Proof.
  induction s as [|a|a b|a b c r IH] using bytes3_ind; cbn [b64_encode]; [constructor|..].
  all: pose proof (byte_range a); try pose proof (byte_range b); try pose proof (byte_range c).
  all: repeat apply Forall_cons; try apply Forall_nil; try exact IH; apply url_b64; try (apply Z.mod_pos_bound; lia); (split; [apply Z.div_pos; lia|apply Z.div_lt_upper_bound; lia]).
Qed.
Lemma b64_encode_len s : Z.of_nat (length (b64_encode s)) = (4 * Z.of_nat (length s) + 2) / 3.
Proof.
  induction s as [|a|a b|a b c r IH] using bytes3_ind; try reflexivity. cbn [b64_encode length]. rewrite !Nat2Z.inj_succ, IH.
  replace (4 * Z.succ (Z.succ (Z.succ (Z.of_nat (length r)))) + 2) with (4 * Z.of_nat (length r) + 2 + 4 * 3) by lia. rewrite Z.div_add by lia. lia.
Qed.
Lemma b64_groups_some n : forall l, (length l <= n)%nat -> (b64_groups l <> None <-> (length l mod 4)%nat <> 1%nat).
Proof.
  induction n as [n IH] using lt_wf_ind. intros l Hl. destruct l as [|a [|b [|c [|d r]]]]; cbn [b64_groups]; try (split; intros; cbn; congruence).
  - split; intros H; exfalso; apply H; reflexivity.
  - cbn [length] in *. destruct n as [|n]; [lia|]. replace (S (S (S (S (length r)))) mod 4)%nat with (length r mod 4)%nat.
    2: { replace (S (S (S (S (length r))))) with (length r + 1 * 4)%nat by lia. symmetry. apply Nat.mod_add. lia. }
    rewrite <- (IH n ltac:(lia) r ltac:(lia)). destruct (b64_groups r); split; intros; congruence.
Qed.
Lemma b64_vals_some s : b64_vals s <> None <-> Forall (fun c => url_char c = true) s.
Proof.
  induction s as [|c s IH]; [split; [constructor|discriminate]|]. cbn [b64_vals]. pose proof (b64_val_iff c) as V. split.
  - intros H. destruct (b64_val c); [|congruence]. destruct (b64_vals s); [|congruence]. constructor; [apply V; discriminate|apply IH; discriminate].
  - intros H. inversion H as [|? ? H1 H2]; subst. apply V in H1. apply IH in H2. destruct (b64_val c); [|congruence]. destruct (b64_vals s); [discriminate|congruence].
Qed.
Lemma b64_vals_len s : forall l, b64_vals s = Some l -> length l = length s.
Proof. induction s as [|c s IH]; intros l H; cbn in H; [injection H as <-; reflexivity|]. destruct (b64_val c); [|discriminate]. destruct (b64_vals s); [|discriminate]. injection H as <-. cbn. rewrite (IH _ eq_refl). reflexivity. Qed.

(** ** One spelling of a cursor *)
Definition all_ascii : list ascii := map ascii_of_nat (seq 0 256).
Lemma all_ascii_in : forall c, In c all_ascii.
Proof. intros c. apply in_map_iff. exists (nat_of_ascii c). split; [apply ascii_nat_embedding|]. apply in_seq. pose proof (nat_ascii_bounded c). lia. Qed.
Lemma b64_val_canon : forall c v, b64_val c = Some v -> b64_char v = c /\ 0 <= v < 64 /\ not_newline c = true /\ (v mod 16 = 0 <-> In c (B "AQgw")) /\ (v mod 4 = 0 <-> In c (B "AEIMQUYcgkosw048")).
Proof.
  assert (A : forallb (fun c => match b64_val c with
     | Some v => Ascii.eqb (b64_char v) c && (0 <=? v) && (v <? 64) && not_newline c && Bool.eqb (v mod 16 =? 0) (in_set (B "AQgw") c) && Bool.eqb (v mod 4 =? 0) (in_set (B "AEIMQUYcgkosw048") c)
     | None => true end) all_ascii = true) by (vm_compute; reflexivity).
  rewrite forallb_forall in A. intros c v H. specialize (A c (all_ascii_in c)). rewrite H in A.
  repeat rewrite Bool.andb_true_iff in A. destruct A as [[[[[A1 A2] A3] A4] A5] A6].
  apply Ascii.eqb_eq in A1. apply Bool.eqb_prop in A5, A6. apply Z.leb_le in A2. apply Z.ltb_lt in A3.
  assert (I : forall l, in_set l c = true <-> In c l).
  { intros l. unfold in_set. rewrite existsb_exists. split; [intros (x & Hx & E); destruct (ascii_dec c x) as [->|]; [exact Hx|discriminate]|intros Hx; exists c; split; [exact Hx|destruct (ascii_dec c c); congruence]]. }
  split; [exact A1|]. split; [lia|]. split; [exact A4|]. split; rewrite <- I; [rewrite <- A5|rewrite <- A6]; rewrite Z.eqb_eq; reflexivity.
Qed.

Lemma byte_to_byte : forall n, 0 <= n -> byte (to_byte n) = n mod 256.
Proof.
  intros n H. unfold byte, to_byte. rewrite nat_ascii_embedding; [apply Z2Nat.id; apply Z.mod_pos_bound; lia|].
  apply Nat2Z.inj_lt. rewrite Z2Nat.id by (apply Z.mod_pos_bound; lia). apply Z.mod_pos_bound. lia.
Qed.
Lemma b64_char_inj : forall a b, 0 <= a < 64 -> 0 <= b < 64 -> b64_char a = b64_char b -> a = b.
Proof. intros a b Ha Hb E. pose proof (b64_val_char a Ha) as X. rewrite E, (b64_val_char b Hb) in X. congruence. Qed.
Lemma canonical_step : forall a b c d r, canonical_end (a :: b :: c :: d :: r) <-> canonical_end r.
Proof.
  intros a b c d r. unfold canonical_end. replace (length (a :: b :: c :: d :: r)) with (length r + 1 * 4)%nat by (cbn; lia).
  rewrite Nat.mod_add by lia. destruct r; [reflexivity|]. reflexivity.
Qed.
Lemma b64_spelling : forall n s l b, (length s <= n)%nat -> b64_vals s = Some l -> b64_groups l = Some b -> (b64_encode b = s <-> canonical_end s).
Proof.
  induction n as [|n IH]; intros s l b Hn Hv Hg.
  - destruct s; [|cbn in Hn; lia]. injection Hv as <-. injection Hg as <-. split; [intros _; exact I|reflexivity].
  - destruct s as [|c0 [|c1 [|c2 [|c3 r]]]].
    + injection Hv as <-. injection Hg as <-. split; [intros _; exact I|reflexivity].
    + cbn in Hv. destruct (b64_val c0) as [v0|]; [|discriminate]. injection Hv as <-. discriminate.
    + cbn [b64_vals] in Hv. destruct (b64_val c0) as [v0|] eqn:E0; [|discriminate]. destruct (b64_val c1) as [v1|] eqn:E1; [|discriminate]. injection Hv as <-.
      cbn [b64_groups] in Hg. injection Hg as <-. apply b64_val_canon in E0 as (K0 & R0 & _). apply b64_val_canon in E1 as (K1 & R1 & _ & M1 & _).
      unfold canonical_end. cbn [length Nat.modulo Nat.divmod fst snd Nat.sub last]. rewrite <- M1. cbn [b64_encode].
      rewrite byte_to_byte by (apply Z.add_nonneg_nonneg; [lia|apply Z.div_pos; lia]).
      assert (0 <= v1 / 16 < 4) by (split; [apply Z.div_pos; lia|apply Z.div_lt_upper_bound; lia]).
      rewrite Z.mod_small by lia.
      replace ((v0 * 4 + v1 / 16) * 65536) with (v0 * 262144 + (v1 / 16) * 65536) by lia.
      rewrite Z.div_add_l by lia. rewrite (Z.div_small (v1 / 16 * 65536)) by lia. rewrite Z.add_0_r, K0.
      assert (X : (v0 * 262144 + v1 / 16 * 65536) / 4096 mod 64 = v1 / 16 * 16).
      { replace (v0 * 262144 + v1 / 16 * 65536) with ((v1 / 16 * 16 + v0 * 64) * 4096) by lia. rewrite Z.div_mul by lia. rewrite Z.mod_add by lia. apply Z.mod_small. lia. }
      rewrite X. pose proof (Z.div_mod v1 16 ltac:(lia)). split.
      * intros Q. injection Q as Q. rewrite <- K1 in Q. apply b64_char_inj in Q; lia.
      * intros Q. f_equal. f_equal. rewrite <- K1. f_equal. lia.
    + cbn [b64_vals] in Hv. destruct (b64_val c0) as [v0|] eqn:E0; [|discriminate]. destruct (b64_val c1) as [v1|] eqn:E1; [|discriminate].
      destruct (b64_val c2) as [v2|] eqn:E2; [|discriminate]. injection Hv as <-.
      cbn [b64_groups] in Hg. injection Hg as <-. apply b64_val_canon in E0 as (K0 & R0 & _). apply b64_val_canon in E1 as (K1 & R1 & _). apply b64_val_canon in E2 as (K2 & R2 & _ & _ & M2).
      unfold canonical_end. cbn [length Nat.modulo Nat.divmod fst snd Nat.sub last]. rewrite <- M2. cbn [b64_encode].
      assert (0 <= v1 / 16 < 4) by (split; [apply Z.div_pos; lia|apply Z.div_lt_upper_bound; lia]).
      assert (0 <= v2 / 4 < 16) by (split; [apply Z.div_pos; lia|apply Z.div_lt_upper_bound; lia]).
      rewrite !byte_to_byte by lia. rewrite (Z.mod_small (v0 * 4 + v1 / 16)) by lia.
      pose proof (Z.div_mod v1 16 ltac:(lia)) as D1. pose proof (Z.mod_pos_bound v1 16 ltac:(lia)) as B1. pose proof (Z.div_mod v2 4 ltac:(lia)) as D2.
      assert (Y : (v1 * 16 + v2 / 4) mod 256 = (v1 mod 16) * 16 + v2 / 4).
      { rewrite D1 at 1. replace ((16 * (v1 / 16) + v1 mod 16) * 16 + v2 / 4) with ((v1 mod 16) * 16 + v2 / 4 + (v1 / 16) * 256) by lia. rewrite Z.mod_add by lia. apply Z.mod_small. lia. }
      rewrite Y. set (q1 := v1 / 16) in *. set (m1 := v1 mod 16) in *. set (q2 := v2 / 4) in *.
      set (v := (v0 * 4 + q1) * 65536 + (m1 * 16 + q2) * 256).
      assert (V1 : v / 262144 = v0). { unfold v. replace ((v0 * 4 + q1) * 65536 + (m1 * 16 + q2) * 256) with (v0 * 262144 + (q1 * 65536 + (m1 * 16 + q2) * 256)) by lia. rewrite Z.div_add_l by lia. rewrite Z.div_small by lia. lia. }
      assert (V2 : v / 4096 mod 64 = v1). { unfold v. replace ((v0 * 4 + q1) * 65536 + (m1 * 16 + q2) * 256) with ((v0 * 64 + v1) * 4096 + q2 * 256) by lia. rewrite Z.div_add_l by lia. rewrite (Z.div_small (q2 * 256)) by lia. rewrite Z.add_0_r, Z.add_comm, Z.mod_add by lia. apply Z.mod_small. lia. }
      assert (V3 : v / 64 mod 64 = q2 * 4). { unfold v. replace ((v0 * 4 + q1) * 65536 + (m1 * 16 + q2) * 256) with ((q2 * 4 + (v0 * 64 + v1) * 64) * 64) by lia. rewrite Z.div_mul by lia. rewrite Z.mod_add by lia. apply Z.mod_small. lia. }
      rewrite V1, V2, V3, K0, K1. split.
      * intros Q. injection Q as Q. rewrite <- K2 in Q. apply b64_char_inj in Q; lia.
      * intros Q. f_equal. f_equal. f_equal. rewrite <- K2. f_equal. lia.
    + cbn [b64_vals] in Hv. destruct (b64_val c0) as [v0|] eqn:E0; [|discriminate]. destruct (b64_val c1) as [v1|] eqn:E1; [|discriminate].
      destruct (b64_val c2) as [v2|] eqn:E2; [|discriminate]. destruct (b64_val c3) as [v3|] eqn:E3; [|discriminate]. destruct (b64_vals r) as [l'|] eqn:Er; [|discriminate]. injection Hv as <-.
      cbn [b64_groups] in Hg. destruct (b64_groups l') as [t|] eqn:Et; [|discriminate]. injection Hg as <-.
      specialize (IH r l' t ltac:(cbn in Hn; lia) Er Et). rewrite canonical_step, <- IH. cbn [b64_encode].
      apply b64_val_canon in E0 as (K0 & R0 & _). apply b64_val_canon in E1 as (K1 & R1 & _). apply b64_val_canon in E2 as (K2 & R2 & _). apply b64_val_canon in E3 as (K3 & R3 & _).
      assert (0 <= v1 / 16 < 4) by (split; [apply Z.div_pos; lia|apply Z.div_lt_upper_bound; lia]).
      assert (0 <= v2 / 4 < 16) by (split; [apply Z.div_pos; lia|apply Z.div_lt_upper_bound; lia]).
      rewrite !byte_to_byte by lia. rewrite (Z.mod_small (v0 * 4 + v1 / 16)) by lia.
      pose proof (Z.div_mod v1 16 ltac:(lia)) as D1. pose proof (Z.mod_pos_bound v1 16 ltac:(lia)) as B1. pose proof (Z.div_mod v2 4 ltac:(lia)) as D2. pose proof (Z.mod_pos_bound v2 4 ltac:(lia)) as B2.
      assert (Y : (v1 * 16 + v2 / 4) mod 256 = (v1 mod 16) * 16 + v2 / 4).
      { rewrite D1 at 1. replace ((16 * (v1 / 16) + v1 mod 16) * 16 + v2 / 4) with ((v1 mod 16) * 16 + v2 / 4 + (v1 / 16) * 256) by lia. rewrite Z.mod_add by lia. apply Z.mod_small. lia. }
      assert (Y2 : (v2 * 64 + v3) mod 256 = (v2 mod 4) * 64 + v3).
      { rewrite D2 at 1. replace ((4 * (v2 / 4) + v2 mod 4) * 64 + v3) with ((v2 mod 4) * 64 + v3 + (v2 / 4) * 256) by lia. rewrite Z.mod_add by lia. apply Z.mod_small. lia. }
      rewrite Y, Y2. set (q1 := v1 / 16) in *. set (m1 := v1 mod 16) in *. set (q2 := v2 / 4) in *. set (m2 := v2 mod 4) in *.
      replace ((v0 * 4 + q1) * 65536 + (m1 * 16 + q2) * 256 + (m2 * 64 + v3)) with (((v0 * 64 + v1) * 64 + v2) * 64 + v3) by lia.
      assert (W0 : (((v0 * 64 + v1) * 64 + v2) * 64 + v3) / 262144 = v0). { replace (((v0 * 64 + v1) * 64 + v2) * 64 + v3) with (v0 * 262144 + (v1 * 4096 + v2 * 64 + v3)) by lia. rewrite Z.div_add_l by lia. rewrite Z.div_small by lia. lia. }
      assert (W1 : (((v0 * 64 + v1) * 64 + v2) * 64 + v3) / 4096 mod 64 = v1). { replace (((v0 * 64 + v1) * 64 + v2) * 64 + v3) with ((v1 + v0 * 64) * 4096 + (v2 * 64 + v3)) by lia. rewrite Z.div_add_l by lia. rewrite (Z.div_small (v2 * 64 + v3)) by lia. rewrite Z.add_0_r, Z.mod_add by lia. apply Z.mod_small. lia. }
      assert (W2 : (((v0 * 64 + v1) * 64 + v2) * 64 + v3) / 64 mod 64 = v2). { rewrite Z.div_add_l by lia. rewrite (Z.div_small v3) by lia. rewrite Z.add_0_r, Z.add_comm, Z.mod_add by lia. apply Z.mod_small. lia. }
      assert (W3 : (((v0 * 64 + v1) * 64 + v2) * 64 + v3) mod 64 = v3). { rewrite Z.add_comm, Z.mod_add by lia. apply Z.mod_small. lia. }
      rewrite W0, W1, W2, W3, K0, K1, K2, K3. split; [intros Q; injection Q as Q; exact Q|intros ->; reflexivity].
Qed.
