(** Proofs about the ID generator. *)
From Verif Require Import GoBase GoBaseFacts FlakeModel FlakeSpec.
From Coq Require Import ZifyBool ZifyNat Sorted.
Open Scope Z_scope.

(** ** Bits *)
Lemma lor_shift a b n : 0 <= n -> 0 <= b < 2 ^ n -> Z.lor (Z.shiftl a n) b = a * 2 ^ n + b.
Proof.
  intros Hn Hb. assert (E : Z.land (Z.shiftl a n) b = 0).
  { apply Z.bits_inj'. intros i Hi. rewrite Z.land_spec, Z.bits_0, Z.shiftl_spec by lia.
    destruct (Z.lt_ge_cases i n) as [H|H].
    - rewrite (Z.testbit_neg_r a) by lia. reflexivity.
    - rewrite <- (Z.mod_small b (2 ^ n)) by lia. rewrite Z.mod_pow2_bits_high by lia. apply andb_false_r. }
  rewrite <- Z.lxor_lor by exact E. rewrite <- Z.add_nocarry_lxor by exact E. rewrite Z.shiftl_mul_pow2 by lia. reflexivity.
Qed.
Lemma land_mask a n : 0 <= n -> Z.land a (2 ^ n - 1) = a mod 2 ^ n.
Proof. intros Hn. rewrite <- Z.land_ones by exact Hn. rewrite Z.ones_equiv. reflexivity. Qed.

(** ** State invariant after [n] calls *)
Definition fine (n : Z) (f : flake) : Prop :=
  0 <= f_elapsed f <= 2 ^ 45 + n /\ 0 <= f_seq f < 64 /\ uint16 (f_machine f) /\ - 9223372036854 <= f_start f <= 9223372036854.
Definition key (f : flake) : Z := f_elapsed f * 64 + f_seq f.

Lemma i64_small z : int64 z -> i64 z = z.
Proof. unfold int64, i64, wrap_s. intros H. change (64 - 1) with 63. rewrite Z.mod_small by lia. lia. Qed.
Lemma u64_small z : uint64 z -> u64 z = z.
Proof. unfold uint64, u64, wrap_u. intros H. apply Z.mod_small. exact H. Qed.
Lemma to_flake_bound t : int64 t -> - 9223372036854 <= to_flake_time t <= 9223372036854.
Proof.
  unfold int64, to_flake_time, flakeTimeUnit. intros H. change (2 ^ 63) with 9223372036854775808 in H.
  pose proof (Z.quot_rem' t 1000000). pose proof (Z.rem_bound_abs t 1000000 ltac:(lia)). lia.
Qed.
Lemma current_bound start t : - 9223372036854 <= start <= 9223372036854 -> int64 t -> - 2 ^ 45 <= current_elapsed start t <= 2 ^ 45 /\ current_elapsed start t = to_flake_time t - start.
Proof.
  intros H1 H2. apply to_flake_bound in H2. unfold current_elapsed. rewrite i64_small; [lia|]. unfold int64. lia.
Qed.

Lemma to_id_some n f : fine n f -> 
  to_id f = if 2 ^ 41 <=? f_elapsed f then None else Some (packed (f_elapsed f) (f_seq f) (f_machine f)).
Proof.
  intros (H1 & H2 & H3 & H4). unfold to_id. change (2 ^ bitLenTime) with (2 ^ 41). destruct (2 ^ 41 <=? f_elapsed f) eqn:E; [reflexivity|].
  f_equal. unfold uint16 in H3. change (bitLenSequence + bitLenMachineID) with 22. unfold bitLenMachineID.
  rewrite (u64_small (f_elapsed f)), (u64_small (f_seq f)), (u64_small (f_machine f)) by (unfold uint64; lia).
  rewrite (u64_small (Z.shiftl (f_elapsed f) 22)), (u64_small (Z.shiftl (f_seq f) 16)) by (unfold uint64; rewrite Z.shiftl_mul_pow2 by lia; lia).
  rewrite <- Z.lor_assoc. rewrite lor_shift with (n := 16) (b := f_machine f) by lia.
  rewrite lor_shift by lia. unfold packed. lia.
Qed.

Lemma seq_inc s : 0 <= s < 64 -> Z.land (u16 (s + 1)) maskSequence16 = if s =? 63 then 0 else s + 1.
Proof.
  intros H. unfold maskSequence16, bitLenSequence. rewrite land_mask by lia. unfold u16, wrap_u. rewrite (Z.mod_small (s + 1)) by lia.
  destruct (s =? 63) eqn:E; [replace s with 63 by lia; reflexivity|]. apply Z.mod_small. lia.
Qed.

(** The state in which toID is called. *)
Definition advance (f : flake) (t1 : Z) : flake :=
  let current := current_elapsed (f_start f) t1 in
  if f_elapsed f <? current then set_seq (set_elapsed f current) 0
  else
    let s := Z.land (u16 (f_seq f + 1)) maskSequence16 in
    let fs := set_seq f s in
    let fm := if f_maxseq fs <? s then set_maxseq fs s else fs in
    if s =? 0 then set_elapsed fm (i64 (f_elapsed fm + 1)) else fm.
Lemma next_advance f t1 t2 : n_id (next_id f t1 t2) = to_id (advance f t1) /\
  n_flake (next_id f t1 t2) = match to_id (advance f t1) with Some i => set_last (advance f t1) i | None => advance f t1 end.
Proof.
  unfold next_id, advance. cbn zeta. destruct (f_elapsed f <? _).
  - destruct (to_id _); split; reflexivity.
  - destruct (_ =? 0); destruct (to_id _); split; reflexivity.
Qed.

Lemma advance_fine n f t1 : fine n f -> 0 <= n < 2 ^ 62 -> int64 t1 ->
  fine (n + 1) (advance f t1) /\ key f < key (advance f t1) /\ f_start (advance f t1) = f_start f /\ f_machine (advance f t1) = f_machine f /\
  f_first (advance f t1) = f_first f /\ f_last (advance f t1) = f_last f /\
  f_elapsed f <= f_elapsed (advance f t1) /\ to_flake_time t1 - f_start f <= f_elapsed (advance f t1).
Proof.
  intros (H1 & H2 & H3 & H4) Hn Ht. destruct (current_bound _ _ H4 Ht) as [Hc Ec]. unfold advance. cbn zeta.
  destruct (f_elapsed f <? _) eqn:E1.
  - rewrite Ec in *. unfold fine, key. cbn. repeat split; try lia; try apply H3; try apply H4.
  - rewrite (seq_inc _ H2). assert (E : forall s, f_maxseq (set_seq f s) = f_maxseq f) by reflexivity.
    destruct (f_seq f =? 63) eqn:E2.
    + cbn [Z.eqb]. rewrite E. destruct (f_maxseq f <? 0); unfold fine, key; cbn; rewrite i64_small by (unfold int64; lia);
        repeat split; try lia; try apply H3; try apply H4.
    + destruct (f_seq f + 1 =? 0) eqn:E3; [lia|]. rewrite E. destruct (f_maxseq f <? _); unfold fine, key; cbn; repeat split; try lia; try apply H3; try apply H4.
Qed.

Lemma set_last_key f i : key (set_last f i) = key f. Proof. reflexivity. Qed.
Lemma next_fine n f t1 t2 : fine n f -> 0 <= n < 2 ^ 62 -> int64 t1 ->
  let f' := n_flake (next_id f t1 t2) in
  fine (n + 1) f' /\ key f < key f' /\ f_start f' = f_start f /\ f_machine f' = f_machine f /\ f_first f' = f_first f /\
  f_elapsed f <= f_elapsed f' /\ to_flake_time t1 - f_start f <= f_elapsed f' /\
  n_id (next_id f t1 t2) = (if 2 ^ 41 <=? f_elapsed f' then None else Some (packed (f_elapsed f') (f_seq f') (f_machine f))) /\
  f_last f' = match n_id (next_id f t1 t2) with Some i => i | None => f_last f end.
Proof.
  intros Hf Hn Ht f'. subst f'. destruct (next_advance f t1 t2) as [E1 E2]. rewrite E1, E2.
  destruct (advance_fine n f t1 Hf Hn Ht) as (A1 & A2 & A3 & A4 & A5 & A6 & A7 & A8).
  rewrite (to_id_some _ _ A1). destruct (2 ^ 41 <=? f_elapsed (advance f t1)) eqn:E.
  - rewrite E. repeat split; auto; try apply A1.
  - change (f_elapsed (set_last (advance f t1) _)) with (f_elapsed (advance f t1)). rewrite E. cbn [set_last f_seq f_last].
    split; [exact A1|]. split; [exact A2|]. split; [exact A3|]. split; [exact A4|]. split; [exact A5|]. split; [exact A7|].
    split; [exact A8|]. rewrite A4. split; reflexivity.
Qed.

(** ** Histories *)
Lemma run_fine h : forall n f, fine n f -> 0 <= n -> n + Z.of_nat (length h) < 2 ^ 62 -> readings h ->
  let '(f', l) := next_ids f h in
  fine (n + Z.of_nat (length h)) f' /\ f_start f' = f_start f /\ f_machine f' = f_machine f /\ f_first f' = f_first f /\ key f <= key f' /\
  StronglySorted Z.lt (somes l) /\
  Forall (fun i => exists e s, i = packed e s (f_machine f) /\ f_elapsed f <= e < 2 ^ 41 /\ 0 <= s < 64 /\ key f < e * 64 + s <= key f') (somes l) /\
  f_last f' = last (somes l) (f_last f).
Proof.
  induction h as [|[t1 t2] h IH]; intros n f Hf Hn HL HR; cbn [next_ids length].
  - replace (n + Z.of_nat 0) with n by lia. repeat split; try apply Hf; try reflexivity; try constructor.
  - inversion HR as [|x y Hx Hr]; subst. cbn in Hx. destruct Hx as [Hx1 Hx2]. cbn [length] in HL.
    destruct (next_fine n f t1 t2 Hf) as (A1 & A2 & A3 & A4 & A5 & A6 & A7 & A8 & A9); [lia|exact Hx1|].
    set (f1 := n_flake (next_id f t1 t2)) in *. specialize (IH (n + 1) f1 A1 ltac:(lia) ltac:(lia) Hr).
    destruct (next_ids f1 h) as [f2 l]. destruct IH as (B1 & B2 & B3 & B4 & B5 & B6 & B7 & B8).
    replace (n + Z.of_nat (S (length h))) with (n + 1 + Z.of_nat (length h)) by lia.
    split; [exact B1|]. split; [congruence|]. split; [congruence|]. split; [congruence|]. split; [lia|].
    rewrite A8 in *. destruct (2 ^ 41 <=? f_elapsed f1) eqn:E; cbn [somes].
    + split; [exact B6|]. split.
      * eapply Forall_impl; [|exact B7]. intros i (e & s & -> & H1 & H2 & H3). exists e, s. rewrite A4. repeat split; try lia.
      * rewrite B8, A9. reflexivity.
    + split.
      * constructor; [exact B6|]. eapply Forall_impl; [|exact B7]. intros i (e & s & -> & H1 & H2 & H3). rewrite A4. unfold packed, key in *. lia.
      * split.
        -- constructor.
           ++ exists (f_elapsed f1), (f_seq f1). destruct A1 as (C1 & C2 & _). unfold key in *. repeat split; try lia.
           ++ eapply Forall_impl; [|exact B7]. intros i (e & s & -> & H1 & H2 & H3). exists e, s. rewrite A4. repeat split; try lia.
        -- rewrite B8, A9. destruct (somes l) as [|y r]; [reflexivity|]. cbn [last].
           destruct r as [|y' r]; [reflexivity|]. clear. revert y'. induction r as [|z r IHr]; intros y'; [reflexivity|]. cbn [last] in *. apply IHr.
Qed.

(** ** New generators *)
Lemma fresh_fine start m : int64 start -> uint16 m -> fine 0 (mkFlake (to_flake_time start) 0 maskSequence16 0 m 0 0).
Proof. intros H1 H2. unfold fine. cbn [f_elapsed f_seq f_machine f_start]. pose proof (to_flake_bound _ H1). change maskSequence16 with 63. repeat split; try lia; try apply H2. Qed.
Lemma start_int64 st : good_settings st -> int64 (start_of st).
Proof. intros [H _]. unfold start_of. destruct (s_start st) eqn:E; [apply H; reflexivity|]. unfold int64, default_start. lia. Qed.

Lemma new_fine st t0 t1 t2 f : good_settings st -> int64 t1 -> new_generator st t0 t1 t2 = Some f ->
  fine 1 f /\ f_start f = to_flake_time (start_of st) /\ s_machine st = Some (f_machine f) /\ s_check st (f_machine f) = true /\
  start_of st <= t0 /\
  f_first f = packed (f_elapsed f) (f_seq f) (f_machine f) /\ f_elapsed f < 2 ^ 41 /\ f_last f = f_first f /\ f_seq f = 0 /\
  to_flake_time t1 - f_start f <= f_elapsed f.
Proof.
  intros HS Ht. unfold new_generator. fold (start_of st). destruct (t0 <? start_of st) eqn:E0; [discriminate|].
  destruct (s_machine st) as [m|] eqn:Em; [|discriminate]. destruct (negb (s_check st m)) eqn:Ec; [discriminate|].
  pose proof (fresh_fine _ m (start_int64 _ HS) (proj2 HS _ Em)) as HF.
  set (f0 := mkFlake (to_flake_time (start_of st)) 0 maskSequence16 0 m 0 0) in *.
  destruct (next_fine 0 f0 t1 t2 HF) as (A1 & A2 & A3 & A4 & A5 & A6 & A7 & A8 & A9); [lia|exact Ht|].
  assert (Hseq : f_seq (n_flake (next_id f0 t1 t2)) = 0).
  { destruct (next_advance f0 t1 t2) as [_ ->]. assert (E : f_seq (advance f0 t1) = 0).
    { unfold advance. cbn zeta. destruct (f_elapsed f0 <? _); [reflexivity|]. cbn [f0 f_seq maskSequence16].
      change (Z.land (u16 (maskSequence16 + 1)) maskSequence16) with 0. cbn. reflexivity. }
    destruct (to_id _); exact E. }
  set (f1 := n_flake (next_id f0 t1 t2)) in *.
  destruct (n_id (next_id f0 t1 t2)) as [i|]; [|discriminate]. intros H; injection H as <-.
  destruct (2 ^ 41 <=? f_elapsed f1) eqn:E; [discriminate|]. injection A8 as ->. cbn [set_first f_start f_machine f_first f_elapsed f_seq f_last].
  split; [exact A1|]. rewrite A4. repeat split; auto; try lia.
  cbn [f0 f_machine]. destruct (s_check st m); [reflexivity|discriminate].
Qed.

(** ** Concurrency *)
Definition in_section (p : pc) : bool := match p with PIdle | PLock | PReturn _ => false | _ => true end.
Definition pending (p : pc) : option Z := match p with PUnlock r | PReturn r => r | _ => None end.
(** What holds of the shared fields while the holder is at [p]; [hi]: key of the
    last ID assigned. *)
Definition at_pc (n hi : Z) (f : flake) (p : pc) : Prop :=
  match p with
  | PIdle | PLock | PReturn _ | PUnlock _ | PClock => fine n f /\ hi <= key f
  | PBranch c | PIncSeq c => fine n f /\ hi <= key f /\ - 2 ^ 45 <= c <= 2 ^ 45
  | PSetElapsed c => fine n f /\ hi <= key f /\ f_elapsed f < c <= 2 ^ 45
  | PSetSeq => fine n f /\ hi < f_elapsed f * 64
  | PMaxSeq c | PTestSeq c => fine n f /\ (if f_seq f =? 0 then hi < f_elapsed f * 64 + 64 else hi < key f)
  | PIncElapsed c => fine n f /\ f_seq f = 0 /\ hi < f_elapsed f * 64 + 64
  | PSleep _ | PToID => fine n f /\ hi < key f
  end.
Lemma at_pc_mono n n' hi f p : n <= n' -> at_pc n hi f p -> at_pc n' hi f p.
Proof.
  intros Hn. assert (M : fine n f -> fine n' f) by (unfold fine; intros (A & A' & A''); split; [lia|auto]).
  destruct p; cbn; intuition.
Qed.
Definition id_of (hi m : Z) : Z := hi * 65536 + m.
Definition holder (s : cstate) : pc := match c_lock s with Some t => c_pc s t | None => PIdle end.

Record cinv (n hi : Z) (s : cstate) : Prop := {
  ci_pc : at_pc n hi (c_flake s) (holder s);
  ci_lock : forall t, in_section (c_pc s t) = true <-> c_lock s = Some t;
  ci_pend : forall t i, pending (c_pc s t) = Some i -> i <= id_of hi (f_machine (c_flake s)) /\ ~ In i (ret_ids (c_trace s));
  ci_ret : forall i, In i (ret_ids (c_trace s)) -> i <= id_of hi (f_machine (c_flake s));
  ci_pend2 : forall t t' i, pending (c_pc s t) = Some i -> pending (c_pc s t') = Some i -> t = t';
  ci_nodup : NoDup (ret_ids (c_trace s));
  (* real-time order for calls that have their ID but have not returned *)
  ci_rt : forall t y t1 a x t2 t3, pending (c_pc s t) = Some y -> c_trace s = t1 ++ EvRet a x :: t2 ++ EvCall t :: t3 -> x < y;
  (* ... and for returned calls *)
  ci_done : forall t y t1 a x t2 t3 t4, c_trace s = t1 ++ EvRet a x :: t2 ++ EvCall t :: t3 ++ EvRet t y :: t4 -> x < y }.

Lemma set_pc_same m t p : set_pc m t p t = p.
Proof. unfold set_pc. rewrite Nat.eqb_refl. reflexivity. Qed.
Lemma set_pc_other m t p x : x <> t -> set_pc m t p x = m x.
Proof. unfold set_pc. intros H. replace (x =? t)%nat with false by lia. reflexivity. Qed.
Lemma set_pc_cases m t p x : (x = t /\ set_pc m t p x = p) \/ (x <> t /\ set_pc m t p x = m x).
Proof. destruct (Nat.eq_dec x t); [left; subst; split; [reflexivity|apply set_pc_same]|right; split; [assumption|apply set_pc_other; assumption]]. Qed.
Lemma ret_ids_app a b : ret_ids (a ++ b) = ret_ids a ++ ret_ids b.
Proof. apply flat_map_app. Qed.
Lemma ret_ids_in tr a x t1 t2 : tr = t1 ++ EvRet a x :: t2 -> In x (ret_ids tr).
Proof. intros ->. rewrite ret_ids_app. apply in_or_app. right. left. reflexivity. Qed.

(** Steps inside the critical section that assign no ID. *)
Lemma local_step n n' hi s t f' p' : cinv n hi s -> c_lock s = Some t -> in_section p' = true -> pending p' = None ->
  f_machine f' = f_machine (c_flake s) -> at_pc n' hi f' p' ->
  cinv n' hi (mkC f' (c_lock s) (set_pc (c_pc s) t p') (c_trace s)).
Proof.
  intros [H1 H2 H3 H4 H5 H6 H7 H8] HL Hp Hq Hm HA. constructor; cbn; auto.
  - unfold holder. cbn. rewrite HL, set_pc_same. exact HA.
  - intros t'. destruct (set_pc_cases (c_pc s) t p' t') as [[-> E]|[Hn E]]; rewrite E; [rewrite Hp; tauto|apply H2].
  - intros t' i. destruct (set_pc_cases (c_pc s) t p' t') as [[-> E]|[Hn E]]; rewrite E; [congruence|]. rewrite Hm. apply H3.
  - intros i. rewrite Hm. apply H4.
  - intros u u' i. destruct (set_pc_cases (c_pc s) t p' u) as [[-> E]|[Hn E]]; rewrite E; [congruence|].
    destruct (set_pc_cases (c_pc s) t p' u') as [[-> E']|[Hn' E']]; rewrite E'; [congruence|]. apply H5.
  - intros u y t1 a x t2 t3. destruct (set_pc_cases (c_pc s) t p' u) as [[-> E]|[Hn E]]; rewrite E; [congruence|]. apply H7.
Qed.

Lemma snoc_split {A} (tr : list A) e t1 b t3 : tr ++ [e] = t1 ++ b :: t3 ->
  (exists t3', t3 = t3' ++ [e] /\ tr = t1 ++ b :: t3') \/ (t3 = [] /\ b = e /\ tr = t1).
Proof.
  intros H. destruct t3 as [|y t3] using rev_ind.
  - right. apply app_inj_tail in H as [-> ->]. auto.
  - left. clear IHt3. exists t3. rewrite app_comm_cons, app_assoc in H. apply app_inj_tail in H as [-> ->]. auto.
Qed.

Lemma cstep_inv n hi s t now : cinv n hi s -> 0 <= n < 2 ^ 62 -> int64 now ->
  exists hi', hi <= hi' /\ cinv (n + 1) hi' (cstep s t now).
Proof.
  intros HI Hn Hnow. pose proof HI as [H1 H2 H3 H4 H5 H6 H7 H8].
  assert (HOLD : in_section (c_pc s t) = true -> c_lock s = Some t /\ at_pc n hi (c_flake s) (c_pc s t)).
  { intros E. apply H2 in E. split; [exact E|]. unfold holder in H1. rewrite E in H1. exact H1. }
  unfold cstep. destruct (c_pc s t) as [| | |c|c| |c|c|c|c|c| |r|r] eqn:EP; cbn zeta.
  - (* PIdle *) exists hi. split; [lia|]. constructor; cbn; rewrite ?ret_ids_app, ?app_nil_r; auto.
    + apply (at_pc_mono n); [lia|]. unfold holder in *. cbn. destruct (c_lock s) as [t'|] eqn:EL; [|exact H1].
      destruct (set_pc_cases (c_pc s) t PLock t') as [[-> E]|[Hx E]]; rewrite E; [|exact H1].
      exfalso. assert (in_section (c_pc s t) = true) by (apply H2; reflexivity). rewrite EP in H. discriminate.
    + intros t'. destruct (set_pc_cases (c_pc s) t PLock t') as [[-> E]|[Hx E]]; rewrite E; [|apply H2].
      split; [discriminate|]. intros HL. apply H2 in HL. rewrite EP in HL. discriminate.
    + intros t' i. destruct (set_pc_cases (c_pc s) t PLock t') as [[-> E]|[Hx E]]; rewrite E; [discriminate|]. apply H3.
    + intros u u' i. destruct (set_pc_cases (c_pc s) t PLock u) as [[-> E]|[Hx E]]; rewrite E; [discriminate|].
      destruct (set_pc_cases (c_pc s) t PLock u') as [[-> E']|[Hx' E']]; rewrite E'; [discriminate|]. apply H5.
    + intros u y t1 a x t2 t3. destruct (set_pc_cases (c_pc s) t PLock u) as [[-> E]|[Hx E]]; rewrite E; [discriminate|].
      intros HP HT. rewrite app_comm_cons, app_assoc in HT. apply snoc_split in HT as [(t3' & -> & HT)|(_ & HT & _)].
      * rewrite <- app_assoc, <- app_comm_cons in HT. eapply H7; eassumption.
      * congruence.
    + intros u y t1 a x t2 t3 t4 HT.
      replace (t1 ++ EvRet a x :: t2 ++ EvCall u :: t3 ++ EvRet u y :: t4) with ((t1 ++ EvRet a x :: t2 ++ EvCall u :: t3) ++ EvRet u y :: t4) in HT
        by (rewrite <- app_assoc; cbn; rewrite <- app_assoc; reflexivity).
      apply snoc_split in HT as [(t3' & -> & HT)|(_ & HT & _)]; [|discriminate].
      rewrite <- app_assoc in HT. cbn in HT. rewrite <- app_assoc in HT. cbn in HT. eapply H8; exact HT.
  - (* PLock *) exists hi. split; [lia|]. destruct (c_lock s) as [t'|] eqn:EL.
    + constructor; auto; [|rewrite EL; exact H2]. apply (at_pc_mono n); [lia|]. exact H1.
    + assert (HN : forall u, in_section (c_pc s u) = false).
      { intros u. destruct (in_section (c_pc s u)) eqn:E; [|reflexivity]. apply H2 in E. discriminate. }
      constructor; cbn; auto.
      * unfold holder in *. rewrite EL in H1. cbn. rewrite set_pc_same. cbn. cbn in H1. apply (at_pc_mono n (n + 1) hi _ PClock); [lia|exact H1].
      * intros u. destruct (set_pc_cases (c_pc s) t PClock u) as [[-> E]|[Hx E]]; rewrite E; [cbn; tauto|].
        rewrite HN. split; [discriminate|congruence].
      * intros u i. destruct (set_pc_cases (c_pc s) t PClock u) as [[-> E]|[Hx E]]; rewrite E; [discriminate|]. apply H3.
      * intros u u' i. destruct (set_pc_cases (c_pc s) t PClock u) as [[-> E]|[Hx E]]; rewrite E; [discriminate|].
        destruct (set_pc_cases (c_pc s) t PClock u') as [[-> E']|[Hx' E']]; rewrite E'; [discriminate|]. apply H5.
      * intros u y t1 a x t2 t3. destruct (set_pc_cases (c_pc s) t PClock u) as [[-> E]|[Hx E]]; rewrite E; [discriminate|]. apply H7.
  - (* PClock *) destruct (HOLD eq_refl) as [HL HA]. exists hi. split; [lia|]. eapply local_step; eauto. apply (at_pc_mono n); [lia|].
    cbn in *. destruct HA as [HF HK]. repeat split; try apply HF; auto; apply (current_bound (f_start (c_flake s)) now); try apply HF; exact Hnow.
  - (* PBranch *) destruct (HOLD eq_refl) as [HL HA]. exists hi. split; [lia|]. cbn in HA. destruct HA as (HF & HK & HC).
    eapply local_step; eauto; try (destruct (_ <? _); reflexivity). apply (at_pc_mono n); [lia|].
    destruct (_ <? _) eqn:E; cbn; auto. repeat split; try apply HF; auto; lia.
  - (* PSetElapsed *) destruct (HOLD eq_refl) as [HL HA]. exists hi. split; [lia|]. cbn in HA. destruct HA as (HF & HK & HC).
    eapply local_step; eauto. cbn. unfold fine, key in *. cbn. split; [|lia]. repeat split; try apply HF; lia.
  - (* PSetSeq *) destruct (HOLD eq_refl) as [HL HA]. exists hi. split; [lia|]. cbn in HA. destruct HA as (HF & HK).
    eapply local_step; eauto. apply (at_pc_mono n); [lia|]. cbn. unfold fine, key in *. cbn. split; [|lia]. repeat split; try apply HF; lia.
  - (* PIncSeq *) destruct (HOLD eq_refl) as [HL HA]. exists hi. split; [lia|]. cbn in HA. destruct HA as (HF & HK & HC).
    eapply local_step; eauto. apply (at_pc_mono n); [lia|]. cbn. rewrite seq_inc by apply HF. unfold fine, key in *. cbn.
    destruct (f_seq (c_flake s) =? 63) eqn:E; cbn; [|replace (f_seq (c_flake s) + 1 =? 0) with false by lia]; (split; [|lia]);
      repeat split; try apply HF; lia.
  - (* PMaxSeq *) destruct (HOLD eq_refl) as [HL HA]. exists hi. split; [lia|]. cbn in HA.
    eapply local_step; eauto; [destruct (_ <? _); reflexivity|]. apply (at_pc_mono n); [lia|]. cbn. destruct (_ <? _); exact HA.
  - (* PTestSeq *) destruct (HOLD eq_refl) as [HL HA]. exists hi. split; [lia|]. cbn in HA. destruct HA as (HF & HK).
    eapply local_step; eauto; try (destruct (_ =? _); reflexivity). apply (at_pc_mono n); [lia|].
    destruct (f_seq (c_flake s) =? 0) eqn:E; cbn; auto. repeat split; try apply HF; lia.
  - (* PIncElapsed *) destruct (HOLD eq_refl) as [HL HA]. exists hi. split; [lia|]. cbn in HA. destruct HA as (HF & HK & HH).
    eapply local_step; eauto. cbn. unfold fine, key in *. cbn. rewrite i64_small by (unfold int64; lia). split; [|lia]. repeat split; try apply HF; lia.
  - (* PSleep *) destruct (HOLD eq_refl) as [HL HA]. exists hi. split; [lia|]. eapply local_step; eauto. apply (at_pc_mono n); [lia|]. exact HA.
  - (* PToID *) destruct (HOLD eq_refl) as [HL HA]. cbn in HA. destruct HA as (HF & HK). rewrite (to_id_some _ _ HF).
    destruct (2 ^ 41 <=? f_elapsed (c_flake s)) eqn:E.
    + exists hi. split; [lia|]. eapply local_step; eauto. apply (at_pc_mono n); [lia|]. split; [exact HF|lia].
    + set (i := packed _ _ _). set (f := c_flake s) in *. exists (key f). split; [lia|].
      assert (Ei : i = id_of (key f) (f_machine f)) by reflexivity.
      assert (Hlt : id_of hi (f_machine f) < i) by (rewrite Ei; unfold id_of; lia).
      assert (Hnew : ~ In i (ret_ids (c_trace s))) by (intros Hin; apply H4 in Hin; lia).
      constructor; cbn; auto.
      * unfold holder. cbn. rewrite HL, set_pc_same. apply (at_pc_mono n); [lia|]. cbn. split; [exact HF|]. apply Z.le_refl.
      * intros u. destruct (set_pc_cases (c_pc s) t (PUnlock (Some i)) u) as [[-> E1]|[Hx E1]]; rewrite E1; [cbn; tauto|apply H2].
      * intros u j. destruct (set_pc_cases (c_pc s) t (PUnlock (Some i)) u) as [[-> E1]|[Hx E1]]; rewrite E1.
        -- cbn. intros HJ; injection HJ as <-. split; [apply Z.eq_le_incl; exact Ei|exact Hnew].
        -- intros HJ. destruct (H3 _ _ HJ). split; [|assumption]. fold f in H. rewrite Ei in Hlt. lia.
      * intros j HJ. apply H4 in HJ. fold f in HJ. rewrite Ei in Hlt. lia.
      * intros u u' j. destruct (set_pc_cases (c_pc s) t (PUnlock (Some i)) u) as [[-> E1]|[Hx E1]]; rewrite E1;
          destruct (set_pc_cases (c_pc s) t (PUnlock (Some i)) u') as [[-> E2]|[Hx' E2]]; rewrite E2; auto.
        -- cbn. intros HJ HJ'. injection HJ as <-. apply H3 in HJ'. fold f in HJ'. lia.
        -- cbn. intros HJ HJ'. injection HJ' as <-. apply H3 in HJ. fold f in HJ. lia.
        -- apply H5.
      * intros u y t1 a x t2 t3. destruct (set_pc_cases (c_pc s) t (PUnlock (Some i)) u) as [[-> E1]|[Hx E1]]; rewrite E1; [|apply H7].
        cbn. intros HJ HT. injection HJ as <-. apply ret_ids_in in HT. apply H4 in HT. fold f in HT. lia.
  - (* PUnlock *) destruct (HOLD eq_refl) as [HL HA]. exists hi. split; [lia|]. constructor; cbn; auto.
    + unfold holder. cbn [c_lock c_flake]. apply (at_pc_mono n (n + 1) hi _ PIdle); [lia|]. exact HA.
    + intros u. destruct (set_pc_cases (c_pc s) t (PReturn r) u) as [[-> E1]|[Hx E1]]; rewrite E1; [cbn; split; congruence|].
      split; [|discriminate]. intros HU. apply H2 in HU. congruence.
    + intros u j. destruct (set_pc_cases (c_pc s) t (PReturn r) u) as [[-> E1]|[Hx E1]]; rewrite E1; [|apply H3].
      cbn. intros HJ. apply (H3 t). rewrite EP. exact HJ.
    + intros u u' j. destruct (set_pc_cases (c_pc s) t (PReturn r) u) as [[-> E1]|[Hx E1]]; rewrite E1;
          destruct (set_pc_cases (c_pc s) t (PReturn r) u') as [[-> E2]|[Hx' E2]]; rewrite E2; auto; try apply H5;
          cbn; intros HJ HJ'; eapply H5; rewrite ?EP; eassumption.
    + intros u y t1 a x t2 t3. destruct (set_pc_cases (c_pc s) t (PReturn r) u) as [[-> E1]|[Hx E1]]; rewrite E1; [|apply H7].
      cbn. intros HJ. eapply (H7 t). rewrite EP. exact HJ.
  - (* PReturn *) exists hi. split; [lia|]. set (e := match r with Some i => EvRet t i | None => EvPanic t end).
    assert (HR : forall i, In i (ret_ids (c_trace s ++ [e])) <-> In i (ret_ids (c_trace s)) \/ r = Some i).
    { intros i. rewrite ret_ids_app, in_app_iff. subst e. destruct r as [j|]; cbn; intuition congruence. }
    assert (HPT : forall u i, pending (set_pc (c_pc s) t PIdle u) = Some i -> u <> t /\ pending (c_pc s u) = Some i).
    { intros u i. destruct (set_pc_cases (c_pc s) t PIdle u) as [[-> E1]|[Hx E1]]; rewrite E1; [discriminate|auto]. }
    constructor; cbn [c_flake c_lock c_pc c_trace].
    + unfold holder in *. cbn. apply (at_pc_mono n); [lia|]. destruct (c_lock s) as [t'|] eqn:EL; [|exact H1].
      destruct (set_pc_cases (c_pc s) t PIdle t') as [[-> E]|[Hx E]]; rewrite E; [|exact H1]. rewrite EP in H1. exact H1.
    + intros u. destruct (set_pc_cases (c_pc s) t PIdle u) as [[-> E1]|[Hx E1]]; rewrite E1; [|apply H2].
      split; [discriminate|]. intros HU. apply H2 in HU. rewrite EP in HU. discriminate.
    + intros u j HJ. apply HPT in HJ as [Hu HJ]. split; [apply (H3 u); exact HJ|]. rewrite HR. intros [Hin| ->]; [apply (H3 u) in HJ; tauto|].
      apply Hu. eapply H5; [exact HJ|]. rewrite EP. reflexivity.
    + intros i. rewrite HR. intros [Hin| ->]; [apply H4; exact Hin|]. apply (H3 t). rewrite EP. reflexivity.
    + intros u u' j HJ HJ'. apply HPT in HJ as [_ HJ]. apply HPT in HJ' as [_ HJ']. eapply H5; eassumption.
    + rewrite ret_ids_app. subst e. destruct r as [i|]; cbn; [|rewrite app_nil_r; exact H6].
      apply NoDup_Add with (a := i) (l := ret_ids (c_trace s)).
      * rewrite <- (app_nil_r (ret_ids (c_trace s))) at 1. apply Add_app.
      * split; [exact H6|]. apply (H3 t). rewrite EP. reflexivity.
    + intros u y t1 a x t2 t3 HJ HT. apply HPT in HJ as [Hu HJ]. rewrite app_comm_cons, app_assoc in HT.
      apply snoc_split in HT as [(t3' & -> & HT)|(_ & HT & _)].
      * rewrite <- app_assoc, <- app_comm_cons in HT. eapply H7; eassumption.
      * subst e. destruct r; discriminate.
    + intros u y t1 a x t2 t3 t4 HT.
      replace (t1 ++ EvRet a x :: t2 ++ EvCall u :: t3 ++ EvRet u y :: t4) with ((t1 ++ EvRet a x :: t2 ++ EvCall u :: t3) ++ EvRet u y :: t4) in HT
        by (rewrite <- app_assoc; cbn; rewrite <- app_assoc; reflexivity).
      apply snoc_split in HT as [(t3' & -> & HT)|(_ & HT & HT2)].
      * rewrite <- app_assoc in HT. cbn in HT. rewrite <- app_assoc in HT. cbn in HT. eapply H8; exact HT.
      * subst e. destruct r as [i|]; [|discriminate]. injection HT as -> ->. eapply (H7 t); [rewrite EP; reflexivity|exact HT2].
Qed.

Lemma crun_inv sched : forall n hi s, cinv n hi s -> 0 <= n -> n + Z.of_nat (length sched) < 2 ^ 62 -> Forall (fun x => int64 (snd x)) sched ->
  exists hi', cinv (n + Z.of_nat (length sched)) hi' (crun s sched).
Proof.
  induction sched as [|[t now] sched IH]; intros n hi s HI Hn HL HF; cbn [crun fold_left length].
  - exists hi. replace (n + Z.of_nat 0) with n by lia. exact HI.
  - inversion HF as [|x y Hx Hr]; subst. cbn [length] in HL. destruct (cstep_inv n hi s t now HI) as (hi' & _ & HI'); [lia|exact Hx|].
    destruct (IH (n + 1) hi' (cstep s t now) HI' ltac:(lia) ltac:(lia) Hr) as (hi2 & HI2). exists hi2.
    replace (n + Z.of_nat (S (length sched))) with (n + 1 + Z.of_nat (length sched)) by lia. exact HI2.
Qed.
Lemma cinit_inv n f : fine n f -> cinv n (key f) (cinit f).
Proof.
  intros HF. constructor; cbn; try discriminate.
  - split; [exact HF|apply Z.le_refl].
  - intros t. split; discriminate.
  - intros i [].
  - constructor.
  - intros t y [|]; discriminate.
Qed.

(** Every ID returned is above the generator's last one at the start. *)
Definition above (lo : Z) (s : cstate) : Prop :=
  (forall t i, pending (c_pc s t) = Some i -> lo < i) /\ (forall i, In i (ret_ids (c_trace s)) -> lo < i).
Lemma cstep_above n hi lo s t now : cinv n hi s -> 0 <= n < 2 ^ 62 -> lo <= id_of hi (f_machine (c_flake s)) -> above lo s -> above lo (cstep s t now).
Proof.
  intros HI Hn Hlo [A1 A2]. pose proof HI as [H1 H2 _ _ _ _ _ _]. unfold cstep.
  assert (G : forall f' p, pending p = None -> above lo (mkC f' (c_lock s) (set_pc (c_pc s) t p) (c_trace s))).
  { intros f' p Hp. split; [|exact A2]. intros u i. cbn. destruct (set_pc_cases (c_pc s) t p u) as [[-> E]|[Hx E]]; rewrite E; [congruence|apply A1]. }
  destruct (c_pc s t) as [| | |c|c| |c|c|c|c|c| |r|r] eqn:EP; cbn zeta; try (apply G; reflexivity).
  - split; cbn.
    + intros u i. destruct (set_pc_cases (c_pc s) t PLock u) as [[-> E]|[Hx E]]; rewrite E; [discriminate|apply A1].
    + intros i. rewrite ret_ids_app, app_nil_r. apply A2.
  - destruct (c_lock s); [split; assumption|]. split; [|exact A2]. intros u i. cbn.
    destruct (set_pc_cases (c_pc s) t PClock u) as [[-> E]|[Hx E]]; rewrite E; [discriminate|apply A1].
  - apply G. destruct (_ <? _); reflexivity.
  - apply G. destruct (_ =? _); reflexivity.
  - assert (HA : at_pc n hi (c_flake s) PToID).
    { assert (E : c_lock s = Some t) by (apply H2; rewrite EP; reflexivity). unfold holder in H1. rewrite E, EP in H1. exact H1. }
    cbn in HA. destruct HA as (HF & HK). rewrite (to_id_some _ _ HF). destruct (2 ^ 41 <=? _); [apply G; reflexivity|].
    split; [|exact A2]. intros u i. cbn. destruct (set_pc_cases (c_pc s) t (PUnlock (Some (packed (f_elapsed (c_flake s)) (f_seq (c_flake s)) (f_machine (c_flake s))))) u) as [[-> E]|[Hx E]]; rewrite E; [|apply A1].
    cbn. intros HJ; injection HJ as <-. unfold packed, id_of, key in *. lia.
  - split; [|exact A2]. intros u i. cbn. destruct (set_pc_cases (c_pc s) t (PReturn r) u) as [[-> E]|[Hx E]]; rewrite E; [|apply A1].
    cbn. intros HJ. apply (A1 t). rewrite EP. exact HJ.
  - split; cbn.
    + intros u i. destruct (set_pc_cases (c_pc s) t PIdle u) as [[-> E]|[Hx E]]; rewrite E; [discriminate|apply A1].
    + intros i. rewrite ret_ids_app, in_app_iff. intros [Hin|Hin]; [apply A2; exact Hin|]. destruct r as [j|]; [|destruct Hin].
      destruct Hin as [<-|[]]. apply (A1 t). rewrite EP. reflexivity.
Qed.
Lemma cstep_machine s t now : f_machine (c_flake (cstep s t now)) = f_machine (c_flake s).
Proof.
  unfold cstep. destruct (c_pc s t); cbn zeta; try reflexivity.
  - destruct (c_lock s); reflexivity.
  - cbn. destruct (_ <? _); reflexivity.
  - destruct (to_id _); reflexivity.
Qed.
Lemma crun_above sched : forall n hi lo s, cinv n hi s -> 0 <= n -> n + Z.of_nat (length sched) < 2 ^ 62 -> Forall (fun x => int64 (snd x)) sched ->
  lo <= id_of hi (f_machine (c_flake s)) -> above lo s -> above lo (crun s sched).
Proof.
  induction sched as [|[t now] sched IH]; intros n hi lo s HI Hn HL HF Hlo HA; cbn [crun fold_left length]; [exact HA|].
  inversion HF as [|x y Hx Hr]; subst. cbn [length] in HL. destruct (cstep_inv n hi s t now HI) as (hi' & Hh & HI'); [lia|exact Hx|].
  eapply (IH (n + 1) hi'); [exact HI'|lia|lia|exact Hr| |].
  - cbn. rewrite cstep_machine. unfold id_of in *. lia.
  - cbn. eapply cstep_above; try eassumption. lia.
Qed.

(** ** The clock and Sleep *)
Lemma quot_mono_nonneg a b : 0 <= a <= b -> Z.quot a 1000000 <= Z.quot b 1000000.
Proof. intros H. apply Z.quot_le_mono; lia. Qed.

Lemma timely_step n f now t1 t2 t3 : fine n f -> 0 <= n < 2 ^ 62 -> 0 <= now <= t1 -> int64 t3 ->
  (f_elapsed f + f_start f) * 1000000 <= now -> timely f t1 t2 t3 ->
  (f_elapsed (n_flake (next_id f t1 t2)) + f_start f) * 1000000 <= t3.
Proof.
  intros HF Hn Hnow H3 HE [(T1 & T2) T3]. assert (Ht1 : int64 t1) by (unfold int64 in *; lia). pose proof HF as (F1 & F2 & F3 & F4).
  destruct (current_bound _ _ F4 Ht1) as [Hc Ec]. destruct (next_advance f t1 t2) as [_ E2].
  assert (E : f_elapsed (n_flake (next_id f t1 t2)) = f_elapsed (advance f t1)) by (rewrite E2; destruct (to_id _); reflexivity).
  rewrite E. clear E E2. unfold next_id in T3. cbn zeta in T3. unfold advance. cbn zeta.
  assert (Hq : to_flake_time t1 * 1000000 <= t1).
  { unfold to_flake_time, flakeTimeUnit. pose proof (Z.quot_rem' t1 1000000). pose proof (Z.rem_bound_pos t1 1000000 ltac:(lia) ltac:(lia)). lia. }
  destruct (f_elapsed f <? _) eqn:E1.
  - cbn. rewrite Ec. lia.
  - rewrite Ec in E1. rewrite (seq_inc _ F2) in *. destruct (f_seq f =? 63) eqn:Es.
    + cbn [Z.eqb] in *.
      set (fm := if f_maxseq (set_seq f 0) <? 0 then set_maxseq (set_seq f 0) 0 else set_seq f 0) in *.
      assert (Em : f_elapsed fm = f_elapsed f /\ f_start fm = f_start f) by (subst fm; destruct (f_maxseq (set_seq f 0) <? 0); split; reflexivity). destruct Em as [Em Em'].
      cbn [set_elapsed f_elapsed] in *. rewrite Em in *. rewrite (i64_small (f_elapsed f + 1)) in * by (unfold int64; lia).
      assert (T3' : t2 + sleep_time (i64 (f_elapsed f + 1 - current_elapsed (f_start f) t1)) t2 <= t3).
      { destruct (to_id _); exact T3. }
      rewrite Ec in T3'.
      assert (Ecur : f_elapsed f = to_flake_time t1 - f_start f).
      { assert (f_elapsed f + f_start f <= to_flake_time t1); [|lia]. unfold to_flake_time, flakeTimeUnit.
        apply Z.quot_le_lower_bound; lia. }
      replace (f_elapsed f + 1 - (to_flake_time t1 - f_start f)) with 1 in T3' by lia.
      change (i64 1) with 1 in T3'. unfold sleep_time, flakeTimeUnit in T3'. change (i64 (1 * 1000000)) with 1000000 in T3'.
      pose proof (Z.quot_rem' t2 1000000) as Q. pose proof (Z.rem_bound_pos t2 1000000 ltac:(lia) ltac:(lia)) as R.
      rewrite i64_small in T3' by (unfold int64; lia).
      pose proof (quot_mono_nonneg t1 t2 ltac:(lia)) as M. unfold to_flake_time, flakeTimeUnit in *. lia.
    + replace (f_seq f + 1 =? 0) with false by lia. destruct (f_maxseq (set_seq f (f_seq f + 1)) <? f_seq f + 1); cbn; lia.
Qed.

Lemma timely_fine h : forall n f now, fine n f -> 0 <= n -> n + Z.of_nat (length h) < 2 ^ 62 -> 0 <= now -> Forall (fun x => int64 (snd x)) h ->
  (f_elapsed f + f_start f) * 1000000 <= now -> timely_run f now h ->
  forall h1 t1 t2 t3 h2, h = h1 ++ (t1, t2, t3) :: h2 ->
  let f1 := fst (next_ids f (map fst h1)) in
  let f2 := n_flake (next_id f1 t1 t2) in
  (f_elapsed f2 + f_start f2) * 1000000 <= t3 /\ fine (n + Z.of_nat (length h)) f1 /\ int64 t1 /\ 0 <= t1 /\ (f_elapsed f1 + f_start f1) * 1000000 <= t1.
Proof.
  induction h as [|[[a1 a2] a3] h IH]; intros n f now HF Hn HL Hnow H64 HE HT h1 t1 t2 t3 h2 EH; [destruct h1; discriminate|].
  cbn [timely_run] in HT. destruct HT as (T1 & T2 & T3). inversion H64 as [|x y Hx Hy]; subst. cbn in Hx. cbn [length] in HL.
  assert (Ha : int64 a1) by (unfold int64 in *; destruct T2; lia).
  pose proof (timely_step n f now a1 a2 a3 HF ltac:(lia) ltac:(lia) Hx HE T2) as ST.
  destruct (next_fine n f a1 a2 HF ltac:(lia) Ha) as (A1 & _ & A3 & _).
  destruct h1 as [|b h1].
  - cbn [app] in EH. injection EH as <- <- <- <-. cbn [map next_ids fst]. rewrite A3. split; [exact ST|].
    split; [|split; [exact Ha|split; lia]]. destruct HF as (F1 & F2). split; [lia|exact F2].
  - cbn [app] in EH. injection EH as <- EH. cbn [map fst next_ids]. destruct (next_ids (n_flake (next_id f a1 a2)) (map fst h1)) as [fx lx] eqn:EN.
    specialize (IH (n + 1) _ a3 A1 ltac:(lia) ltac:(lia) ltac:(destruct T2; lia) Hy ltac:(rewrite A3; exact ST) T3 h1 t1 t2 t3 h2 EH).
    rewrite EN in IH. cbn zeta. cbn [fst] in *. cbn [length]. replace (n + Z.of_nat (S (length h))) with (n + 1 + Z.of_nat (length h)) by lia. exact IH.
Qed.

Lemma packed_parts e s m : 0 <= e -> 0 <= s < 64 -> uint16 m ->
  let i := packed e s m in Z.shiftr i 22 = e /\ Z.land i 65535 = m /\ Z.shiftr (Z.land i maskSequence) 16 = s.
Proof.
  unfold uint16, packed. intros He Hs Hm. cbn zeta.
  assert (E1 : Z.shiftr ((e * 64 + s) * 65536 + m) 16 = e * 64 + s).
  { rewrite Z.shiftr_div_pow2 by lia. change (2 ^ 16) with 65536. rewrite Z.div_add_l by lia. rewrite Z.div_small by lia. lia. }
  assert (E2 : Z.shiftr ((e * 64 + s) * 65536 + m) 22 = e).
  { change 22 with (16 + 6). rewrite <- Z.shiftr_shiftr by lia. rewrite E1, Z.shiftr_div_pow2 by lia. change (2 ^ 6) with 64.
    rewrite Z.div_add_l by lia. rewrite Z.div_small by lia. lia. }
  split; [exact E2|]. split.
  - change 65535 with (2 ^ 16 - 1). rewrite land_mask by lia. change (2 ^ 16) with 65536. rewrite Z.add_comm, Z.mod_add by lia. apply Z.mod_small. lia.
  - rewrite Z.shiftr_land, E1. unfold maskSequence, bitLenMachineID. rewrite Z.shiftr_shiftl_l by lia. change (16 - 16) with 0. rewrite Z.shiftl_0_r.
    unfold maskSequence16, bitLenSequence. rewrite land_mask by lia. change (2 ^ 6) with 64. rewrite Z.add_comm, Z.mod_add by lia. apply Z.mod_small. lia.
Qed.
Lemma packed_bound e s m : 0 <= e < 2 ^ 41 -> 0 <= s < 64 -> uint16 m -> 0 <= packed e s m <= maxValue.
Proof. unfold uint16, packed, maxValue. lia. Qed.
Lemma id_time_packed f e s : 0 <= e < 2 ^ 41 -> 0 <= s < 64 -> uint16 (f_machine f) -> int64 ((f_start f + e) * 1000000) ->
  id_time (GFlake f) (packed e s (f_machine f)) = (f_start f + e) * 1000000.
Proof.
  intros He Hs Hm H. unfold id_time. change (bitLenSequence + bitLenMachineID) with 22.
  destruct (packed_parts e s (f_machine f)) as [-> _]; [lia|exact Hs|exact Hm|].
  unfold from_flake_time, flakeTimeUnit, int64 in *.
  rewrite (i64_small e) by (unfold int64; lia). rewrite (i64_small (f_start f + e)) by (unfold int64; lia). apply i64_small. exact H.
Qed.

Lemma new_is_first_call st t0 t1 t2 f : new_generator st t0 t1 t2 = Some f ->
  exists m i, s_machine st = Some m /\ start_of st <= t0 /\ n_id (next_id (blank st m) t1 t2) = Some i /\ f = set_first (n_flake (next_id (blank st m) t1 t2)) i.
Proof.
  unfold new_generator. fold (start_of st). destruct (t0 <? start_of st) eqn:E0; [discriminate|].
  destruct (s_machine st) as [m|] eqn:Em; [|discriminate]. destruct (negb (s_check st m)) eqn:Ec; [discriminate|]. fold (blank st m).
  destruct (n_id (next_id (blank st m) t1 t2)) as [i|] eqn:EI; [|discriminate]. intros H; injection H as <-. exists m, i. repeat split; auto. lia.
Qed.

(** IDs of one generator, from creation. *)
Lemma gen_ids st t0 t1 t2 f h : good_settings st -> int64 t1 -> readings h -> Z.of_nat (length h) < 2 ^ 61 -> new_generator st t0 t1 t2 = Some f ->
  let '(f', l) := next_ids f h in
  StronglySorted Z.lt (f_first f :: somes l) /\
  Forall (fun i => exists e s, i = packed e s (f_machine f) /\ f_elapsed f <= e < 2 ^ 41 /\ 1 <= e /\ 0 <= s < 64 /\ e * 64 + s <= key f') (f_first f :: somes l) /\
  f_last f' = last (somes l) (f_first f) /\ f_first f' = f_first f /\ f_start f' = f_start f /\ f_machine f' = f_machine f /\ fine (1 + Z.of_nat (length h)) f'.
Proof.
  intros HS Ht Hr HL HN. destruct (new_fine _ _ _ _ _ HS Ht HN) as (F1 & F2 & F3 & F4 & F5 & F6 & F7 & F8 & F9 & F10).
  assert (He : 1 <= f_elapsed f).
  { destruct (new_is_first_call _ _ _ _ _ HN) as (m & i & Em & _ & _ & ->). cbn [set_first f_elapsed].
    destruct (next_fine 0 (blank st m) t1 t2) as (_ & K & _); [|lia|exact Ht|].
    - apply fresh_fine; [apply start_int64; exact HS|apply HS; exact Em].
    - unfold key in K. cbn [set_first f_seq] in F9. rewrite F9 in K. cbn [blank f_elapsed f_seq] in K. change maskSequence16 with 63 in K. lia. }
  pose proof (run_fine h 1 f F1 ltac:(lia) ltac:(lia) Hr) as R. destruct (next_ids f h) as [f' l].
  destruct R as (R1 & R2 & R3 & R4 & R5 & R6 & R7 & R8).
  split.
  - constructor; [exact R6|]. eapply Forall_impl; [|exact R7]. intros i (e & s & -> & H1 & H2 & H3). rewrite F6. unfold packed, key in *. lia.
  - split; [constructor|].
    + exists (f_elapsed f), (f_seq f). rewrite F6. unfold key in *. destruct F1 as (A1 & A2 & _). repeat split; try lia.
    + eapply Forall_impl; [|exact R7]. intros i (e & s & -> & H1 & H2 & H3). exists e, s. repeat split; try lia.
    + rewrite R8, F8. auto.
Qed.

Lemma over_forever h : forall n f, fine n f -> 0 <= n -> n + Z.of_nat (length h) < 2 ^ 62 -> readings h -> 2 ^ 41 <= f_elapsed f ->
  Forall (fun r => r = None) (snd (next_ids f h)).
Proof.
  induction h as [|[t1 t2] h IH]; intros n f Hf Hn HL HR HO; cbn [next_ids snd]; [constructor|].
  inversion HR as [|x y Hx Hr]; subst. cbn in Hx. destruct Hx as [Hx1 Hx2]. cbn [length] in HL.
  destruct (next_fine n f t1 t2 Hf) as (A1 & _ & _ & _ & _ & A6 & _ & A8 & _); [lia|exact Hx1|].
  specialize (IH (n + 1) _ A1 ltac:(lia) ltac:(lia) Hr ltac:(lia)). cbn zeta. destruct (next_ids _ h) as [f2 l]. cbn [snd] in *. constructor; [|exact IH].
  rewrite A8. replace (2 ^ 41 <=? _) with true by lia. reflexivity.
Qed.
Lemma panic_forever h : forall n f l1 l2, fine n f -> 0 <= n -> n + Z.of_nat (length h) < 2 ^ 62 -> readings h ->
  snd (next_ids f h) = l1 ++ None :: l2 -> Forall (fun r => r = None) l2.
Proof.
  induction h as [|[t1 t2] h IH]; intros n f l1 l2 Hf Hn HL HR; cbn [next_ids snd]; [destruct l1; discriminate|].
  inversion HR as [|x y Hx Hr]; subst. cbn in Hx. destruct Hx as [Hx1 Hx2]. cbn [length] in HL.
  destruct (next_fine n f t1 t2 Hf) as (A1 & _ & _ & _ & _ & A6 & _ & A8 & _); [lia|exact Hx1|]. cbn zeta.
  pose proof (over_forever h (n + 1) _ A1 ltac:(lia) ltac:(lia) Hr) as OF.
  specialize (IH (n + 1) (n_flake (next_id f t1 t2))). destruct (next_ids _ h) as [f2 l]. cbn [snd] in *.
  destruct l1 as [|a l1]; cbn [app]; intros H; injection H as H0 H.
  - subst l. apply OF. rewrite A8 in H0. destruct (2 ^ 41 <=? _) eqn:E; [lia|discriminate].
  - eapply IH; try eassumption; lia.
Qed.
Lemma over_limit_panics n f t1 t2 : fine n f -> 0 <= n < 2 ^ 62 -> int64 t1 -> 2 ^ 41 <= to_flake_time t1 - f_start f -> n_id (next_id f t1 t2) = None.
Proof.
  intros Hf Hn Ht Ho. destruct (next_fine n f t1 t2 Hf) as (_ & _ & _ & _ & _ & _ & A7 & A8 & _); [lia|exact Ht|]. rewrite A8.
  replace (2 ^ 41 <=? _) with true by lia. reflexivity.
Qed.

(** Calls and returns of one goroutine alternate. *)
Definition alternate (s : cstate) : Prop :=
  (forall t t1 x t2, c_trace s = t1 ++ EvRet t x :: t2 -> c_pc s t <> PIdle -> In (EvCall t) t2) /\
  (forall t t1 x t2 y t3, c_trace s = t1 ++ EvRet t x :: t2 ++ EvRet t y :: t3 -> In (EvCall t) t2).
Lemma alternate_same s f l p t : alternate s -> c_pc s t <> PIdle -> alternate (mkC f l (set_pc (c_pc s) t p) (c_trace s)).
Proof.
  intros [A1 A2] Hp. split; [|exact A2]. cbn. intros u t1 x t2 HT Hu. eapply A1; [exact HT|].
  destruct (set_pc_cases (c_pc s) t p u) as [[-> E]|[Hx E]]; [exact Hp|]. rewrite E in Hu. exact Hu.
Qed.
Lemma alternate_snoc s f l p t e : alternate s -> (forall u x, e = EvRet u x -> u = t /\ c_pc s t <> PIdle) ->
  (forall u, set_pc (c_pc s) t p u <> PIdle -> c_pc s u <> PIdle \/ e = EvCall u) ->
  (forall x, e = EvRet t x -> p = PIdle) ->
  alternate (mkC f l (set_pc (c_pc s) t p) (c_trace s ++ [e])).
Proof.
  intros [A1 A2] HR HP HQ. split; cbn.
  - intros u t1 x t2 HT Hu. apply snoc_split in HT as [(t2' & -> & HT)|(_ & HT & _)].
    + destruct (HP u Hu) as [Hn| ->]; apply in_or_app; [left; eapply A1; eassumption|right; left; reflexivity].
    + exfalso. symmetry in HT. destruct (HR _ _ HT) as [-> _]. apply Hu. rewrite set_pc_same. eapply HQ. exact HT.
  - intros u t1 x t2 y t3 HT. rewrite app_comm_cons, app_assoc in HT. apply snoc_split in HT as [(t3' & -> & HT)|(_ & HT & HT2)].
    + rewrite <- app_assoc, <- app_comm_cons in HT. eapply A2; exact HT.
    + symmetry in HT. destruct (HR _ _ HT) as [-> Hp]. eapply A1; [exact HT2|exact Hp].
Qed.
Lemma cstep_alternate s t now : alternate s -> alternate (cstep s t now).
Proof.
  intros A. assert (G : forall f p, c_pc s t <> PIdle -> alternate (mkC f (c_lock s) (set_pc (c_pc s) t p) (c_trace s))) by (intros; apply alternate_same; assumption).
  unfold cstep. destruct (c_pc s t) as [| | |c|c| |c|c|c|c|c| |r|r] eqn:EP; cbn zeta; try (apply G; congruence).
  - apply alternate_snoc; [exact A|discriminate| |discriminate].
    intros u. destruct (set_pc_cases (c_pc s) t PLock u) as [[-> E]|[Hx E]]; rewrite E; auto.
  - destruct (c_lock s); [exact A|]. apply alternate_same; [exact A|congruence].
  - destruct (to_id _); apply G; congruence.
  - apply alternate_same; [exact A|congruence].
  - apply alternate_snoc; [exact A| | |reflexivity].
    + intros u x. destruct r; [|discriminate]. intros H; injection H as -> ->. split; [reflexivity|congruence].
    + intros u. destruct (set_pc_cases (c_pc s) t PIdle u) as [[-> E]|[Hx E]]; rewrite E; [congruence|auto].
Qed.
Lemma crun_alternate sched : forall s, alternate s -> alternate (crun s sched).
Proof. induction sched as [|[t now] sched IH]; intros s A; cbn [crun fold_left]; [exact A|]. apply IH, cstep_alternate, A. Qed.

Lemma thread_sorted t : forall tr, (forall t1 x t2 y t3, tr = t1 ++ EvRet t x :: t2 ++ EvRet t y :: t3 -> x < y) -> StronglySorted Z.lt (ret_ids_of t tr).
Proof.
  induction tr as [|e tr IH]; intros H; [constructor|].
  assert (IH' : StronglySorted Z.lt (ret_ids_of t tr)).
  { apply IH. intros t1 x t2 y t3 ->. apply (H (e :: t1) x t2 y t3). reflexivity. }
  cbn [ret_ids_of flat_map]. fold (ret_ids_of t tr). destruct e as [u|u x|u]; cbn [app]; [exact IH'| |exact IH'].
  destruct (Nat.eqb_spec u t) as [->|]; [|exact IH']. cbn [app]. constructor; [exact IH'|].
  apply Forall_forall. intros y Hy. unfold ret_ids_of in Hy. apply in_flat_map in Hy as (e & He & Hy).
  destruct e as [v|v z|v]; try destruct Hy. destruct (Nat.eqb_spec v t) as [->|]; [|destruct Hy]. destruct Hy as [->|[]].
  apply in_split in He as (a & b & ->). apply (H [] x a y b). reflexivity.
Qed.

Lemma concurrent_ids n f sched : fine n f -> 0 <= n -> n + Z.of_nat (length sched) < 2 ^ 62 -> Forall (fun x => int64 (snd x)) sched ->
  let tr := c_trace (crun (cinit f) sched) in
  NoDup (ret_ids tr) /\ (forall i, In i (ret_ids tr) -> id_of (key f) (f_machine f) < i) /\ (forall t, StronglySorted Z.lt (ret_ids_of t tr)) /\
  (forall t1 a x t2 b t3 y t4, tr = t1 ++ EvRet a x :: t2 ++ EvCall b :: t3 ++ EvRet b y :: t4 -> x < y).
Proof.
  intros HF Hn HL HS tr. destruct (crun_inv sched n (key f) (cinit f) (cinit_inv n f HF) Hn HL HS) as (hi & [_ _ _ _ _ H6 _ H8]).
  split; [exact H6|]. split.
  - apply (crun_above sched n (key f) _ (cinit f) (cinit_inv n f HF) Hn HL HS).
    + apply Z.le_refl.
    + split; [discriminate|intros i []].
  - split; [|intros; eapply H8; eassumption]. intros t. apply thread_sorted. intros t1 x t2 y t3 HT.
    assert (A : alternate (crun (cinit f) sched)).
    { apply crun_alternate. split; cbn; intros u [|]; discriminate. }
    pose proof (proj2 A _ _ _ _ _ _ HT) as HC. apply in_split in HC as (a & b & ->).
    eapply (H8 t y t1 t x a b). change (c_trace (crun (cinit f) sched)) with tr. rewrite HT, <- app_assoc. reflexivity.
Qed.

(** ** One caller alone *)
Lemma crun_app s a b : crun s (a ++ b) = crun (crun s a) b.
Proof. apply fold_left_app. Qed.
Lemma step1 s t now s' : cstep s t now = s' -> crun s [(t, now)] = s'.
Proof. intros <-. reflexivity. Qed.
Lemma set_pc_twice m t p p' : forall x, set_pc (set_pc m t p) t p' x = set_pc m t p' x.
Proof. intros x. unfold set_pc. destruct (x =? t)%nat; reflexivity. Qed.

(** What a run of [t] alone does from a state where [t] is at [p]. *)
Definition at_state (s : cstate) (t : nat) (f : flake) (l : option nat) (p : pc) (tr : list event) : Prop :=
  c_flake s = f /\ c_lock s = l /\ c_pc s t = p /\ c_trace s = tr.
Lemma solo_step s t f l p tr now f' l' p' tr' : at_state s t f l p tr ->
  (forall s0, c_flake s0 = f -> c_lock s0 = l -> c_pc s0 t = p -> c_trace s0 = tr -> at_state (cstep s0 t now) t f' l' p' tr') ->
  at_state (crun s [(t, now)]) t f' l' p' tr'.
Proof. intros (H1 & H2 & H3 & H4) H. cbn. apply H; assumption. Qed.

Lemma solo_call s t t1 t2 : c_pc s t = PIdle -> c_lock s = None -> exists sched,
  Forall (fun x => fst x = t) sched /\
  let s' := crun s sched in let n := next_id (c_flake s) t1 t2 in
  c_flake s' = n_flake n /\ c_lock s' = None /\ c_pc s' t = PIdle /\
  c_trace s' = c_trace s ++ [EvCall t; match n_id n with Some i => EvRet t i | None => EvPanic t end].
Proof.
  intros HP HL. set (f := c_flake s). set (tr := c_trace s ++ [EvCall t]).
  set (c := current_elapsed (f_start f) t1).
  assert (S1 : at_state (crun s [(t, t1); (t, t1); (t, t1); (t, t1)]) t f (Some t) (if f_elapsed f <? c then PSetElapsed c else PIncSeq c) tr).
  { unfold crun. cbn [fold_left fst snd]. unfold cstep at 4. rewrite HP. cbn zeta. unfold cstep at 3. cbn [c_pc]. rewrite set_pc_same. cbn [c_lock]. rewrite HL.
    unfold cstep at 2. cbn [c_pc]. rewrite set_pc_same. cbn [c_flake]. unfold cstep at 1. cbn [c_pc]. rewrite set_pc_same. cbn [c_flake c_lock c_trace].
    unfold at_state. cbn. rewrite set_pc_same. auto. }
  assert (S2 : exists sched, Forall (fun x => fst x = t) sched /\ at_state (crun s sched) t (advance f t1) (Some t) PToID tr).
  { destruct (f_elapsed f <? c) eqn:E1.
    - exists ([(t, t1); (t, t1); (t, t1); (t, t1)] ++ [(t, t1)] ++ [(t, t1)]). split; [repeat constructor|]. rewrite !crun_app.
      unfold advance. cbn zeta. fold c. rewrite E1.
      eapply solo_step; [eapply solo_step; [exact S1|]|].
      + intros s0 A1 A2 A3 A4. unfold cstep. rewrite A3. unfold at_state. cbn. rewrite set_pc_same, A1, ?A2, ?A4. repeat split.
      + intros s0 A1 A2 A3 A4. unfold cstep. rewrite A3. unfold at_state. cbn. rewrite set_pc_same, A1, ?A2, ?A4. repeat split.
    - unfold advance. cbn zeta. fold c. rewrite E1. set (s1 := Z.land (u16 (f_seq f + 1)) maskSequence16).
      set (fm := if f_maxseq (set_seq f s1) <? s1 then set_maxseq (set_seq f s1) s1 else set_seq f s1).
      assert (S3 : at_state (crun s ([(t, t1); (t, t1); (t, t1); (t, t1)] ++ [(t, t1)] ++ [(t, t1)] ++ [(t, t1)])) t fm (Some t) (if s1 =? 0 then PIncElapsed c else PToID) tr).
      { rewrite !crun_app. eapply solo_step; [eapply solo_step; [eapply solo_step; [exact S1|]|]|].
        - intros s0 A1 A2 A3 A4. unfold cstep. rewrite A3. unfold at_state. cbn. rewrite set_pc_same, A1, ?A2, ?A4. repeat split.
        - intros s0 A1 A2 A3 A4. unfold cstep. rewrite A3. unfold at_state. cbn. rewrite set_pc_same, A1, ?A2, ?A4. repeat split.
        - intros s0 A1 A2 A3 A4. unfold cstep. rewrite A3. unfold at_state. cbn. rewrite set_pc_same, A1. subst fm. cbn.
          split; [reflexivity|]. split; [exact A2|]. split; [|exact A4]. destruct (f_maxseq f <? _); reflexivity. }
      destruct (s1 =? 0) eqn:E2.
      + exists (([(t, t1); (t, t1); (t, t1); (t, t1)] ++ [(t, t1)] ++ [(t, t1)] ++ [(t, t1)]) ++ [(t, t1)] ++ [(t, t2)]). split; [repeat constructor|].
        rewrite crun_app. rewrite crun_app. eapply solo_step; [eapply solo_step; [exact S3|]|].
        * intros s0 A1 A2 A3 A4. unfold cstep. rewrite A3. unfold at_state. cbn. rewrite set_pc_same, A1, ?A2, ?A4. repeat split.
        * intros s0 A1 A2 A3 A4. unfold cstep. rewrite A3. unfold at_state. cbn. rewrite set_pc_same, A1, ?A2, ?A4. repeat split.
      + eexists. split; [|exact S3]. repeat constructor. }
  destruct S2 as (sched & HF & S2). destruct (next_advance f t1 t2) as [E1 E2].
  exists (sched ++ [(t, t1)] ++ [(t, t1)] ++ [(t, t1)]). split; [apply Forall_app; split; [exact HF|repeat constructor]|]. cbn zeta. fold f.
  assert (S4 : at_state (crun s (sched ++ [(t, t1)] ++ [(t, t1)] ++ [(t, t1)])) t (n_flake (next_id f t1 t2)) None PIdle
    (c_trace s ++ [EvCall t; match n_id (next_id f t1 t2) with Some i => EvRet t i | None => EvPanic t end])).
  { rewrite !crun_app. eapply solo_step; [eapply solo_step; [eapply solo_step; [exact S2|]|]|].
    - intros s0 A1 A2 A3 A4. instantiate (1 := tr). instantiate (1 := PUnlock (n_id (next_id f t1 t2))). instantiate (1 := Some t). instantiate (1 := n_flake (next_id f t1 t2)).
      unfold cstep. rewrite A3. cbn zeta. rewrite A1, E1, E2. destruct (to_id (advance f t1)); unfold at_state; cbn; rewrite set_pc_same; auto.
    - intros s0 A1 A2 A3 A4. unfold cstep. rewrite A3. unfold at_state. cbn. rewrite set_pc_same, A1, ?A2, ?A4. repeat split.
    - intros s0 A1 A2 A3 A4. unfold cstep. rewrite A3. unfold at_state. cbn. rewrite set_pc_same, A1, A4. split; [reflexivity|]. split; [exact A2|]. split; [reflexivity|].
      subst tr. rewrite <- app_assoc. reflexivity. }
  exact S4.
Qed.

Lemma recombine i : uint64 i -> let p := decompose i in
  p_id p = i /\ i = p_time p * 2 ^ 22 + p_seq p * 2 ^ 16 + p_machine p /\ 0 <= p_time p < 2 ^ 42 /\ p_msb p = p_time p / 2 ^ 41 /\
  0 <= p_seq p < 64 /\ 0 <= p_machine p < 2 ^ 16.
Proof.
  unfold uint64. intros H. cbn zeta. unfold decompose. cbn [p_id p_msb p_time p_seq p_machine].
  change (bitLenSequence + bitLenMachineID) with 22. unfold maskSequence. rewrite Z.shiftr_land. unfold bitLenMachineID. rewrite Z.shiftr_shiftl_l by lia.
  change (16 - 16) with 0. rewrite Z.shiftl_0_r. unfold maskMachineID, bitLenMachineID, maskSequence16, bitLenSequence.
  rewrite !land_mask by lia. rewrite !Z.shiftr_div_pow2 by lia. change (2 ^ 6) with 64. change (2 ^ 16) with 65536. change (2 ^ 22) with (65536 * 64).
  pose proof (Z.div_mod i 65536 ltac:(lia)) as D1. pose proof (Z.mod_pos_bound i 65536 ltac:(lia)).
  pose proof (Z.div_mod (i / 65536) 64 ltac:(lia)) as D2. pose proof (Z.mod_pos_bound (i / 65536) 64 ltac:(lia)).
  rewrite <- (Z.div_div i 65536 64) by lia. 
  split; [reflexivity|]. split; [lia|].
  assert (0 <= i / 65536 / 64 < 2 ^ 42).
  { rewrite Z.div_div by lia. split; [apply Z.div_pos; lia|apply Z.div_lt_upper_bound; lia]. }
  split; [assumption|]. split; [|split; assumption]. rewrite !Z.div_div by lia. reflexivity.
Qed.

Lemma blank_elapsed st m t0 : start_of st <= t0 -> 0 <= t0 -> (f_elapsed (blank st m) + f_start (blank st m)) * 1000000 <= t0.
Proof.
  intros H0 H0'.
  cbn [blank f_elapsed f_start]. unfold to_flake_time, flakeTimeUnit. pose proof (Z.quot_rem' (start_of st) 1000000).
    destruct (Z.le_gt_cases 0 (start_of st)) as [Hp|Hp].
    - pose proof (Z.rem_bound_pos (start_of st) 1000000 ltac:(lia) ltac:(lia)). lia.
    - pose proof (Z.rem_bound_pos_neg (start_of st) 1000000 ltac:(lia) ltac:(lia)) as HR. revert H HR. generalize (Z.rem (start_of st) 1000000) (Z.quot (start_of st) 1000000).
      clear - Hp H0'. intros r q H HR. lia.
Qed.

Lemma not_ahead st t0 m h : good_settings st -> s_machine st = Some m -> start_of st <= t0 -> 0 <= t0 ->
  Forall (fun x => int64 (snd x)) h -> Z.of_nat (length h) < 2 ^ 61 -> timely_run (blank st m) t0 h ->
  forall h1 t1 t2 t3 h2 i, h = h1 ++ (t1, t2, t3) :: h2 ->
  let f1 := fst (next_ids (blank st m) (map fst h1)) in
  n_id (next_id f1 t1 t2) = Some i -> id_time (GFlake f1) i <= t3.
Proof.
  intros HS HM H0 H0' H64 HL HT h1 t1 t2 t3 h2 i EH f1 HI.
  pose proof (fresh_fine _ m (start_int64 _ HS) (proj2 HS _ HM)) as HF. fold (blank st m) in HF.
  destruct (timely_fine h 0 (blank st m) t0 HF ltac:(lia) ltac:(lia) H0' H64) with (h1 := h1) (t1 := t1) (t2 := t2) (t3 := t3) (h2 := h2) as (A1 & A2 & A3 & A4 & _); auto.
  { apply blank_elapsed; assumption. }
  fold f1 in A1, A2. destruct (next_fine _ f1 t1 t2 A2) as (B1 & _ & B3 & _ & _ & _ & _ & B8 & _); [lia|exact A3|].
  rewrite HI in B8. destruct (2 ^ 41 <=? f_elapsed (n_flake (next_id f1 t1 t2))) eqn:E; [discriminate|]. injection B8 as ->.
  destruct B1 as (C1 & C2 & C3 & C4). rewrite B3 in *. assert (H3 : int64 t3).
  { rewrite Forall_forall in H64. apply (H64 (t1, t2, t3)). rewrite EH. apply in_or_app. right. left. reflexivity. }
  destruct A2 as (_ & _ & U & S). rewrite id_time_packed; [lia|lia|lia|exact U|]. unfold int64 in *. lia.
Qed.

Lemma last_In_or {A} (l : list A) d : In (last l d) (d :: l).
Proof. induction l as [|x l IH] using rev_ind; [left; reflexivity|]. rewrite last_last. right. apply in_or_app. right. left. reflexivity. Qed.
Lemma sorted_last_max d l : StronglySorted Z.lt (d :: l) -> forall i, In i (d :: l) -> i <= last l d.
Proof.
  revert d. induction l as [|x l IH]; intros d HS i Hi.
  - destruct Hi as [->|[]]. apply Z.le_refl.
  - inversion HS as [|a b HS' HF]; subst. assert (E : last (x :: l) d = last l x).
    { clear. revert d x. induction l as [|y l IH]; intros d x; [reflexivity|]. change (last (x :: y :: l) d) with (last (y :: l) d). rewrite (IH d y), (IH x y). reflexivity. }
    rewrite E. destruct Hi as [->|Hi]; [|apply IH; assumption].
    inversion HF as [|a b Hlt HF']; subst. specialize (IH x HS' x (or_introl eq_refl)). lia.
Qed.

Lemma restart_later st t0 t1 t2 f h t0' t1' t2' f' h' :
  good_settings st -> int64 t1 -> readings h -> Z.of_nat (length h) < 2 ^ 61 -> new_generator st t0 t1 t2 = Some f ->
  int64 t1' -> readings h' -> Z.of_nat (length h') < 2 ^ 61 -> new_generator st t0' t1' t2' = Some f' ->
  p_time (decompose (last_id (GFlake (fst (next_ids f h))))) < to_flake_time t1' - to_flake_time (start_of st) ->
  forall i j, In i (first_id (GFlake f) :: somes (snd (next_ids f h))) -> In j (first_id (GFlake f') :: somes (snd (next_ids f' h'))) -> i < j.
Proof.
  intros H1 H2 H3 H4 H5 H2' H3' H4' H5' HT i j Hi Hj.
  pose proof (gen_ids st t0 t1 t2 f h H1 H2 H3 H4 H5) as G. pose proof (gen_ids st t0' t1' t2' f' h' H1 H2' H3' H4' H5') as G'.
  destruct (new_fine _ _ _ _ _ H1 H2 H5) as ((_ & _ & U & _) & _ & M & _). destruct (new_fine _ _ _ _ _ H1 H2' H5') as (_ & F2' & M' & _ & _ & _ & _ & _ & _ & F10').
  assert (EM : f_machine f = f_machine f') by congruence.
  destruct (next_ids f h) as [g l]. destruct (next_ids f' h') as [g' l']. cbn [fst snd first_id last_id] in *.
  destruct G as (G1 & G2 & G3 & _). destruct G' as (_ & G2' & _). rewrite Forall_forall in G2, G2'.
  pose proof (sorted_last_max _ _ G1 i Hi) as HM. rewrite <- G3 in HM.
  destruct (G2 (f_last g)) as (e & s & E & A1 & A2 & A3 & _); [rewrite G3; apply last_In_or|].
  destruct (G2' j Hj) as (e' & s' & E' & A1' & A2' & A3' & _).
  unfold decompose in HT. cbn [p_time] in HT. change (bitLenSequence + bitLenMachineID) with 22 in HT. rewrite E in HT.
  destruct (packed_parts e s (f_machine f)) as (P1 & _); [lia|exact A3|exact U|]. rewrite P1 in HT.
  rewrite F2' in F10'. rewrite E in HM. rewrite E', <- EM. unfold packed, uint16 in *. lia.
Qed.

Lemma own_time st t0 t1 t2 f h s1 s2 i : good_settings st -> int64 t1 -> readings h -> Z.of_nat (length h) < 2 ^ 60 ->
  new_generator st t0 t1 t2 = Some f -> int64 s1 -> int64 s2 ->
  let f1 := fst (next_ids f h) in f_elapsed f1 < to_flake_time s1 - f_start f1 ->
  n_id (next_id f1 s1 s2) = Some i -> id_time (GFlake f1) i = to_flake_time s1 * 1000000.
Proof.
  intros H1 H2 H3 H4 H5 H6 H7. pose proof (gen_ids st t0 t1 t2 f h H1 H2 H3 ltac:(lia) H5) as G. destruct (next_ids f h) as [g l]. destruct G as (_ & _ & _ & _ & _ & _ & G).
  cbn [fst]. intros HE HI. pose proof G as (C1 & C2 & C3 & C4). destruct (current_bound _ _ C4 H6) as [Hc Ec].
  destruct (next_advance g s1 s2) as [E1 _]. rewrite E1 in HI. unfold advance in HI. cbn zeta in HI. rewrite Ec in HI.
  replace (f_elapsed g <? to_flake_time s1 - f_start g) with true in HI by lia.
  rewrite (to_id_some (1 + Z.of_nat (length h))) in HI.
  2: { unfold fine. cbn. repeat split; try apply C3; lia. }
  cbn [set_seq set_elapsed f_elapsed f_seq f_machine] in HI. destruct (2 ^ 41 <=? _) eqn:E; [discriminate|]. injection HI as <-.
  replace (to_flake_time s1 * 1000000) with ((f_start g + (to_flake_time s1 - f_start g)) * 1000000) by lia. apply id_time_packed; auto; try lia.
  pose proof (to_flake_bound _ H6). unfold int64. lia.
Qed.

Lemma accepts st t0 t1 t2 m : good_settings st -> int64 t1 -> start_of st <= t0 -> s_machine st = Some m -> s_check st m = true ->
  to_flake_time t1 - to_flake_time (start_of st) < 2 ^ 41 -> exists f, new_generator st t0 t1 t2 = Some f.
Proof.
  intros HS Ht H0 HM HC HB. pose proof (fresh_fine _ m (start_int64 _ HS) (proj2 HS _ HM)) as HF. fold (blank st m) in HF.
  unfold new_generator. fold (start_of st). replace (t0 <? start_of st) with false by lia. rewrite HM, HC. cbn [negb]. fold (blank st m).
  destruct (next_advance (blank st m) t1 t2) as [E1 _]. destruct (advance_fine 0 _ t1 HF ltac:(lia) Ht) as (A1 & _). cbn zeta. rewrite E1, (to_id_some _ _ A1).
  replace (2 ^ 41 <=? f_elapsed (advance (blank st m) t1)) with false; [eexists; reflexivity|].
  symmetry. apply Z.leb_gt. destruct HF as (_ & _ & _ & F4). destruct (current_bound _ _ F4 Ht) as [Hc Ec]. unfold advance. cbn zeta. rewrite Ec. cbn [blank f_start f_elapsed f_seq].
  destruct (0 <? to_flake_time t1 - to_flake_time (start_of st)) eqn:E; [cbn; lia|]. change (Z.land (u16 (maskSequence16 + 1)) maskSequence16) with 0.
  vm_compute. reflexivity.
Qed.

Lemma fnv_range s : forall h, 0 <= h -> 0 <= fnv32a h s.
Proof. induction s as [|c s IH]; intros h H; cbn; [exact H|]. apply IH. unfold u32, wrap_u. apply Z.mod_pos_bound. lia. Qed.
Lemma default_machine_range arg0 addrs : uint16 (default_machine_id arg0 addrs).
Proof.
  unfold default_machine_id, uint16. destruct (is_test_run arg0).
  - unfold machine_from_program, u16, wrap_u. apply Z.mod_pos_bound. lia.
  - destruct addrs as [l|]; [|lia]. destruct (first_iface l) as [ip|]; [|lia]. unfold maskMachineID, bitLenMachineID. rewrite land_mask by lia. apply Z.mod_pos_bound. lia.
Qed.
Lemma default_machine arg0 l l' ip ip' : is_test_run arg0 = false -> first_iface l = Some ip -> first_iface l' = Some ip' ->
  0 <= nth 14 ip 0 < 256 -> 0 <= nth 15 ip 0 < 256 -> 0 <= nth 14 ip' 0 < 256 -> 0 <= nth 15 ip' 0 < 256 ->
  (default_machine_id arg0 (Some l) = default_machine_id arg0 (Some l') <-> nth 14 ip 0 = nth 14 ip' 0 /\ nth 15 ip 0 = nth 15 ip' 0).
Proof.
  intros HT E E' A B A' B'. unfold default_machine_id. rewrite HT, E, E'.
  assert (G : forall a b, 0 <= a < 256 -> 0 <= b < 256 -> Z.land (u16 (u16 (Z.shiftl a 8) + b)) maskMachineID = a * 256 + b).
  { intros a b Ha Hb. unfold maskMachineID, bitLenMachineID. rewrite land_mask by lia. rewrite Z.shiftl_mul_pow2 by lia. unfold u16, wrap_u.
    change (2 ^ 8) with 256. change (2 ^ 16) with 65536. rewrite (Z.mod_small (a * 256)) by lia. rewrite !Z.mod_small; lia. }
  rewrite !G by assumption. lia.
Qed.

(** ** How long NextID sleeps *)
Lemma sleep_value f t1 t2 d : n_sleep (next_id f t1 t2) = Some d ->
  current_elapsed (f_start f) t1 <= f_elapsed f /\ d = sleep_time (i64 (i64 (f_elapsed f + 1) - current_elapsed (f_start f) t1)) t2.
Proof.
  unfold next_id. cbn zeta. destruct (Z.ltb_spec (f_elapsed f) (current_elapsed (f_start f) t1)) as [L|L].
  - destruct (to_id _); discriminate.
  - set (s := Z.land _ _). destruct (s =? 0) eqn:E; [|destruct (f_maxseq _ <? s); destruct (to_id _); discriminate].
    destruct (f_maxseq (set_seq f s) <? s); cbn [set_maxseq set_seq set_elapsed f_elapsed]; destruct (to_id _); cbn [n_sleep]; intros H; injection H as <-; auto.
Qed.
Lemma sleep_seq f t1 t2 : f_seq f = 63 -> current_elapsed (f_start f) t1 <= f_elapsed f -> n_sleep (next_id f t1 t2) <> None.
Proof.
  intros S L. unfold next_id. cbn zeta. rewrite S. destruct (Z.ltb_spec (f_elapsed f) (current_elapsed (f_start f) t1)); [lia|].
  change (Z.land (u16 (63 + 1)) maskSequence16) with 0. cbn [Z.eqb]. destruct (to_id _); discriminate.
Qed.
Lemma short_sleep st t0 m h : good_settings st -> s_machine st = Some m -> start_of st <= t0 -> 0 <= t0 ->
  Forall (fun x => int64 (snd x)) h -> Z.of_nat (length h) < 2 ^ 61 -> timely_run (blank st m) t0 h ->
  forall h1 t1 t2 t3 h2 d, h = h1 ++ (t1, t2, t3) :: h2 ->
  n_sleep (next_id (fst (next_ids (blank st m) (map fst h1))) t1 t2) = Some d -> 0 < d <= 1000000 /\ (t2 + d) mod 1000000 = 0.
Proof.
  intros HS HM H0 H0' H64 HL HT h1 t1 t2 t3 h2 d EH. set (f1 := fst _). intros HD.
  pose proof (fresh_fine _ m (start_int64 _ HS) (proj2 HS _ HM)) as HF. fold (blank st m) in HF.
  destruct (timely_fine h 0 (blank st m) t0 HF ltac:(lia) ltac:(lia) H0' H64) with (h1 := h1) (t1 := t1) (t2 := t2) (t3 := t3) (h2 := h2) as (_ & A2 & A3 & A4 & A5); auto.
  { apply blank_elapsed; assumption. }
  fold f1 in A2, A5. assert (T12 : t1 <= t2).
  { clear - HT EH. revert HT. subst h. generalize (blank st m) t0. induction h1 as [|[[a b] c] h1 IH]; intros f now HT; cbn [app timely_run] in HT; [destruct HT as (_ & (A & _) & _); lia|]. destruct HT as (_ & _ & HT). exact (IH _ _ HT). }
  destruct A2 as (F1 & _ & _ & F4). destruct (current_bound _ _ F4 A3) as [Cb Ce]. apply sleep_value in HD. destruct HD as [HD1 HD2]. rewrite Ce in *.
  assert (Q : to_flake_time t1 = f_elapsed f1 + f_start f1).
  { assert (f_elapsed f1 + f_start f1 <= to_flake_time t1); [|lia]. unfold to_flake_time, flakeTimeUnit. rewrite Z.quot_div_nonneg by lia. apply Z.div_le_lower_bound; lia. }
  replace (to_flake_time t1 - f_start f1) with (f_elapsed f1) in HD2 by lia.
  rewrite (i64_small (f_elapsed f1 + 1)) in HD2 by (unfold int64; lia). replace (f_elapsed f1 + 1 - f_elapsed f1) with 1 in HD2 by lia. change (i64 1) with 1 in HD2.
  unfold sleep_time, flakeTimeUnit in HD2. change (i64 (1 * 1000000)) with 1000000 in HD2. rewrite Z.rem_mod_nonneg in HD2 by lia.
  pose proof (Z.mod_pos_bound t2 1000000 ltac:(lia)) as Mb. rewrite i64_small in HD2 by (unfold int64; lia). subst d. split; [lia|].
  pose proof (Z.div_mod t2 1000000 ltac:(lia)) as D. replace (t2 + (1000000 - t2 mod 1000000)) with ((t2 / 1000000 + 1) * 1000000) by lia. apply Z.mod_mul. lia.
Qed.
(** After the clock was set back by [k] milliseconds. *)
Lemma long_sleep f t1 t2 n k : fine n f -> 0 <= n < 2 ^ 42 -> int64 t1 -> 0 <= t2 -> f_seq f = 63 -> 0 <= k < 2 ^ 42 ->
  to_flake_time t1 = f_start f + f_elapsed f - k -> exists d, n_sleep (next_id f t1 t2) = Some d /\ k * 1000000 < d <= (k + 1) * 1000000.
Proof.
  intros (F1 & F2 & F3 & F4) Hn H1 H2 HS Hk HC. destruct (current_bound _ _ F4 H1) as [Cb Ce]. rewrite HC in Ce. replace (f_start f + f_elapsed f - k - f_start f) with (f_elapsed f - k) in Ce by lia.
  destruct (n_sleep (next_id f t1 t2)) as [d|] eqn:E; [|exfalso; apply (sleep_seq f t1 t2 HS); [lia|exact E]]. exists d. split; [reflexivity|].
  apply sleep_value in E. destruct E as [_ E]. rewrite Ce in E. rewrite (i64_small (f_elapsed f + 1)) in E by (unfold int64; lia). replace (f_elapsed f + 1 - (f_elapsed f - k)) with (k + 1) in E by lia.
  rewrite (i64_small (k + 1)) in E by (unfold int64; lia). unfold sleep_time, flakeTimeUnit in E. rewrite Z.rem_mod_nonneg in E by lia. pose proof (Z.mod_pos_bound t2 1000000 ltac:(lia)) as Mb.
  rewrite (i64_small ((k + 1) * 1000000)) in E by (unfold int64; lia). rewrite i64_small in E by (unfold int64; lia). lia.
Qed.
(** ** The address used *)
Lemma first_iface_spec l ip : first_iface l = Some ip <->
  exists l1 a l2, l = l1 ++ a :: l2 /\ ia_net a = true /\ is_loopback (ia_ip a) = false /\ ip = ia_ip a /\ Forall (fun b => ia_net b = false \/ is_loopback (ia_ip b) = true) l1.
Proof.
  induction l as [|a l IH]; cbn [first_iface].
  - split; [discriminate|]. intros (l1 & a & l2 & E & _). destruct l1; discriminate E.
  - destruct (negb (ia_net a) || is_loopback (ia_ip a)) eqn:E.
    + rewrite IH. assert (Ha : ia_net a = false \/ is_loopback (ia_ip a) = true) by (destruct (ia_net a); [right|left]; auto). split.
      * intros (l1 & b & l2 & -> & N & L & -> & F). exists (a :: l1), b, l2. repeat split; auto.
      * intros (l1 & b & l2 & X & N & L & -> & F). destruct l1 as [|c l1]; cbn [app] in X; injection X as <- ->; [destruct Ha; congruence|]. inversion F; subst. exists l1, b, l2. repeat split; auto.
    + apply Bool.orb_false_iff in E. destruct E as [E1 E2]. apply Bool.negb_false_iff in E1. split.
      * intros H. injection H as <-. exists [], a, l. repeat split; auto.
      * intros (l1 & b & l2 & X & N & L & -> & F). destruct l1 as [|c l1]; cbn [app] in X; injection X as <- ->; [reflexivity|]. inversion F as [|? ? [C|C] _]; subst; congruence.
Qed.
Lemma zeqb_list_spec a b : zeqb_list a b = true <-> a = b.
Proof. unfold zeqb_list. destruct (list_eq_dec Z.eq_dec a b); split; congruence. Qed.
Lemma loopback_spec ip : length ip = 16%nat -> (is_loopback ip = true <-> (exists b c d, ip = [0;0;0;0;0;0;0;0;0;0;255;255;127;b;c;d]) \/ ip = [0;0;0;0;0;0;0;0;0;0;0;0;0;0;0;1]).
Proof.
  intros L. unfold is_loopback. destruct (zeqb_list (firstn 12 ip) v4_prefix) eqn:E.
  - apply zeqb_list_spec in E. assert (X : ip = v4_prefix ++ skipn 12 ip) by (rewrite <- E; symmetry; apply firstn_skipn). assert (Ls : length (skipn 12 ip) = 4%nat) by (rewrite skipn_length; lia).
    destruct (skipn 12 ip) as [|a [|b [|c [|d [|]]]]]; try discriminate Ls. rewrite X. cbn [v4_prefix app nth]. rewrite Z.eqb_eq. split.
    + intros ->. left. eauto.
    + intros [(b' & c' & d' & Y)|Y]; [injection Y as -> _ _ _; reflexivity|discriminate Y].
  - rewrite zeqb_list_spec. split; [auto|]. intros [(b & c & d & ->)|Y]; [discriminate E|exact Y].
Qed.
