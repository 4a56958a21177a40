(** Property theorems C23-C31, C78-C80: the flake ID generator.
    [new_generator st t0 t1 t2]: NewIDGenerator with the clock readings it
    makes; [next_ids f h]: successive NextID calls, each with its clock readings
    (any int64 values, in any order); [somes]: the IDs returned (a panicking call
    returns none).  Numbers of calls are below 2^61 (elapsedTime is an int64). *)
From Verif Require Import GoBase GoBaseFacts FlakeModel FlakeSpec FlakeProofs.
From Coq Require Import Sorted ZifyBool ZifyNat.
Open Scope Z_scope.

(** A generator for machine 5 and its clock: creation at second 1700000000, then
    a burst in the same millisecond, a jump back, a jump forward. *)
Definition ex_set : settings := mkSettings None (Some 5) (fun _ => true).
Definition ex_now : Z := 1700000000 * 1000000000.
Definition ex_hist : list (Z * Z) := repeat (ex_now, ex_now) 70 ++ [(ex_now - 5000000000, ex_now); (ex_now + 9000000, ex_now)].
Definition ex_flake : flake := match new_generator ex_set ex_now ex_now ex_now with Some f => f | None => blank ex_set 0 end.
Example ex_flake_ok : new_generator ex_set ex_now ex_now ex_now = Some ex_flake. Proof. vm_compute. reflexivity. Qed.
Example ex_set_ok : good_settings ex_set /\ int64 ex_now /\ readings ex_hist.
Proof.
  split; [split; [discriminate|intros m H; injection H as <-; vm_compute; split; [discriminate|reflexivity]]|].
  split; [vm_compute; split; [discriminate|reflexivity]|].
  unfold readings, ex_hist. apply Forall_app. split.
  - apply Forall_forall. intros x Hx. apply repeat_spec in Hx. subst x. vm_compute. repeat split; discriminate || reflexivity.
  - repeat constructor; vm_compute; try discriminate; reflexivity.
Qed.

(** ** C23 *)
Theorem C23_increasing : forall st t0 t1 t2 f h, good_settings st -> int64 t1 -> readings h -> Z.of_nat (length h) < 2 ^ 61 ->
  new_generator st t0 t1 t2 = Some f ->
  StronglySorted Z.lt (first_id (GFlake f) :: somes (snd (next_ids f h))).
Proof. intros st t0 t1 t2 f h H1 H2 H3 H4 H5. pose proof (gen_ids st t0 t1 t2 f h H1 H2 H3 H4 H5) as G. destruct (next_ids f h). apply G. Qed.
Example C23_increasing_ex : length (somes (snd (next_ids ex_flake ex_hist))) = 72%nat /\
  firstn 3 (somes (snd (next_ids ex_flake ex_hist))) = [379755639603265541; 379755639603331077; 379755639603396613].
Proof. vm_compute. split; reflexivity. Qed.

(** ** C24 *)
(** Any number of goroutines [t], interleaved statement by statement around the
    mutex by any schedule: no ID is returned twice, all are above the
    generator's first ID, each goroutine sees increasing IDs, and a call that
    starts after another returned gets a larger ID. *)
Theorem C24_concurrent_unique : forall st t0 t1 t2 f sched, good_settings st -> int64 t1 -> new_generator st t0 t1 t2 = Some f ->
  Z.of_nat (length sched) < 2 ^ 61 -> Forall (fun x => int64 (snd x)) sched ->
  let tr := c_trace (crun (cinit f) sched) in
  NoDup (first_id (GFlake f) :: ret_ids tr) /\ (forall t, StronglySorted Z.lt (ret_ids_of t tr)) /\
  (forall p a x q b r y s, tr = p ++ EvRet a x :: q ++ EvCall b :: r ++ EvRet b y :: s -> x < y).
Proof.
  intros st t0 t1 t2 f sched H1 H2 H3 H4 H5 tr. destruct (new_fine _ _ _ _ _ H1 H2 H3) as (F1 & _ & _ & _ & _ & F6 & _).
  destruct (concurrent_ids 1 f sched F1 ltac:(lia) ltac:(lia) H5) as (A1 & A2 & A3 & A4). split; [|split; [exact A3|exact A4]].
  constructor; [|exact A1]. intros Hin. apply A2 in Hin. cbn [first_id] in Hin. rewrite F6 in Hin. unfold id_of, packed, key in Hin. lia.
Qed.
(** Two goroutines stepping alternately; both get an ID. *)
Example C24_concurrent_unique_ex :
  let tr := c_trace (crun (cinit ex_flake) (concat (repeat [(1%nat, ex_now); (2%nat, ex_now + 3000000)] 20))) in
  length (ret_ids_of 1 tr) = 1%nat /\ length (ret_ids_of 2 tr) = 1%nat.
Proof. vm_compute. split; reflexivity. Qed.

(** A call that runs alone computes [next_id]. *)
Theorem C24_alone_is_next_id : forall s t t1 t2, c_pc s t = PIdle -> c_lock s = None -> exists sched,
  Forall (fun x => fst x = t) sched /\
  let s' := crun s sched in let n := next_id (c_flake s) t1 t2 in
  c_flake s' = n_flake n /\ c_lock s' = None /\ c_pc s' t = PIdle /\
  c_trace s' = c_trace s ++ [EvCall t; match n_id n with Some i => EvRet t i | None => EvPanic t end].
Proof. exact solo_call. Qed.
Example C24_alone_is_next_id_ex : c_pc (cinit ex_flake) 3 = PIdle /\ c_lock (cinit ex_flake) = None.
Proof. split; reflexivity. Qed.

(** ** C25 *)
(** Two generators, any settings and clocks, different machine IDs. *)
Theorem C25_machines_disjoint : forall st t0 t1 t2 f h st' t0' t1' t2' f' h',
  good_settings st -> int64 t1 -> readings h -> Z.of_nat (length h) < 2 ^ 61 -> new_generator st t0 t1 t2 = Some f ->
  good_settings st' -> int64 t1' -> readings h' -> Z.of_nat (length h') < 2 ^ 61 -> new_generator st' t0' t1' t2' = Some f' ->
  s_machine st <> s_machine st' ->
  forall i, In i (first_id (GFlake f) :: somes (snd (next_ids f h))) -> In i (first_id (GFlake f') :: somes (snd (next_ids f' h'))) -> False.
Proof.
  intros st t0 t1 t2 f h st' t0' t1' t2' f' h' H1 H2 H3 H4 H5 H1' H2' H3' H4' H5' Hm i Hi Hi'.
  pose proof (gen_ids st t0 t1 t2 f h H1 H2 H3 H4 H5) as G. pose proof (gen_ids st' t0' t1' t2' f' h' H1' H2' H3' H4' H5') as G'.
  destruct (next_ids f h) as [g l]. destruct (next_ids f' h') as [g' l']. destruct G as (_ & G & _). destruct G' as (_ & G' & _).
  rewrite Forall_forall in G, G'. cbn [first_id snd] in *. destruct (G _ Hi) as (e & s & E & ? & ? & ? & _). destruct (G' _ Hi') as (e' & s' & E' & ? & ? & ? & _).
  destruct (new_fine _ _ _ _ _ H1 H2 H5) as ((_ & _ & U & _) & _ & M & _). destruct (new_fine _ _ _ _ _ H1' H2' H5') as ((_ & _ & U' & _) & _ & M' & _).
  apply Hm. rewrite M, M'. f_equal. unfold packed, uint16 in *. lia.
Qed.
Example C25_machines_disjoint_ex : s_machine ex_set <> s_machine (mkSettings None (Some 6) (fun _ => true)) /\
  exists f', new_generator (mkSettings None (Some 6) (fun _ => true)) ex_now ex_now ex_now = Some f'.
Proof. split; [discriminate|eexists; vm_compute; reflexivity]. Qed.

(** ** C26 *)
Theorem C26_decompose : forall st t0 t1 t2 f h, good_settings st -> int64 t1 -> readings h -> Z.of_nat (length h) < 2 ^ 61 ->
  new_generator st t0 t1 t2 = Some f ->
  forall i, In i (first_id (GFlake f) :: somes (snd (next_ids f h))) -> exists e s m,
  0 < i <= maxValue /\ s_machine st = Some m /\ decompose i = mkParts i 0 e s m /\ 1 <= e < 2 ^ 41 /\ 0 <= s < 64 /\
  i = e * 2 ^ 22 + s * 2 ^ 16 + m /\
  (int64 ((to_flake_time (start_of st) + e) * 1000000) ->
   id_time (GFlake (fst (next_ids f h))) i = (to_flake_time (start_of st) + e) * 1000000).
Proof.
  intros st t0 t1 t2 f h H1 H2 H3 H4 H5 i Hi. pose proof (gen_ids st t0 t1 t2 f h H1 H2 H3 H4 H5) as G.
  destruct (new_fine _ _ _ _ _ H1 H2 H5) as (F1 & F2 & F3 & _). destruct (next_ids f h) as [g l]. destruct G as (_ & G & _ & _ & G5 & G6 & _).
  rewrite Forall_forall in G. cbn [first_id snd fst] in *. destruct (G _ Hi) as (e & s & E & A1 & A2 & A3 & _). destruct F1 as (_ & _ & U & _).
  destruct (packed_parts e s (f_machine f)) as (P1 & P2 & P3); [lia|exact A3|exact U|]. pose proof (packed_bound e s (f_machine f) ltac:(lia) A3 U) as PB.
  exists e, s, (f_machine f). rewrite E. split; [unfold packed, maxValue, uint16 in *; lia|]. split; [exact F3|]. split.
  - unfold decompose. change (bitLenSequence + bitLenMachineID) with 22. change maskMachineID with 65535. change bitLenMachineID with 16. rewrite P1, P2, P3. f_equal.
    rewrite Z.shiftr_div_pow2 by lia. apply Z.div_small. unfold maxValue in PB. lia.
  - split; [lia|]. split; [exact A3|]. split; [unfold packed; lia|]. intros HB. rewrite <- F2, <- G5 in HB. rewrite <- G6, <- F2, <- G5.
    apply id_time_packed; auto; try lia. rewrite G6. exact U.
Qed.
(** For any 64-bit value the parts recombine. *)
Theorem C26_recombine : forall i, uint64 i -> let p := decompose i in
  p_id p = i /\ i = p_time p * 2 ^ 22 + p_seq p * 2 ^ 16 + p_machine p /\ 0 <= p_time p < 2 ^ 42 /\ p_msb p = p_time p / 2 ^ 41 /\
  0 <= p_seq p < 64 /\ 0 <= p_machine p < 2 ^ 16.
Proof. exact recombine. Qed.
Example C26_decompose_ex : decompose (first_id (GFlake ex_flake)) = mkParts 379755639603200005 0 90540800000 0 5 /\
  id_time (GFlake ex_flake) (first_id (GFlake ex_flake)) = ex_now.
Proof. vm_compute. split; reflexivity. Qed.

(** ** C27 *)
(** [blank st m] is the generator before its first NextID (the first call is
    made by NewIDGenerator, see C27_new).  The clock does not go back and shows
    at least [d] more after Sleep(d); times after 1970. *)
Theorem C27_not_ahead : forall st t0 m h, good_settings st -> s_machine st = Some m -> start_of st <= t0 -> 0 <= t0 ->
  Forall (fun x => int64 (snd x)) h -> Z.of_nat (length h) < 2 ^ 61 -> timely_run (blank st m) t0 h ->
  forall h1 t1 t2 t3 h2 i, h = h1 ++ (t1, t2, t3) :: h2 ->
  let f1 := fst (next_ids (blank st m) (map fst h1)) in
  n_id (next_id f1 t1 t2) = Some i -> id_time (GFlake f1) i <= t3.
Proof. exact not_ahead. Qed.
Theorem C27_new : forall st t0 t1 t2 f, new_generator st t0 t1 t2 = Some f ->
  exists m i, s_machine st = Some m /\ start_of st <= t0 /\ n_id (next_id (blank st m) t1 t2) = Some i /\ f = set_first (n_flake (next_id (blank st m) t1 t2)) i.
Proof. exact new_is_first_call. Qed.
(** 64 calls in one millisecond; the 65th sleeps until the next one. *)
Example C27_not_ahead_ex : timely_run (blank ex_set 5) ex_now (repeat (ex_now, ex_now, ex_now) 64 ++ [(ex_now, ex_now + 10, ex_now + 1000000)]) /\
  n_sleep (next_id (fst (next_ids (blank ex_set 5) (repeat (ex_now, ex_now) 64))) ex_now (ex_now + 10)) = Some 999990.
Proof. vm_compute. repeat split; discriminate. Qed.

(** ** C28 *)
Theorem C28_restart_later : forall st t0 t1 t2 f h t0' t1' t2' f' h',
  good_settings st -> int64 t1 -> readings h -> Z.of_nat (length h) < 2 ^ 61 -> new_generator st t0 t1 t2 = Some f ->
  int64 t1' -> readings h' -> Z.of_nat (length h') < 2 ^ 61 -> new_generator st t0' t1' t2' = Some f' ->
  p_time (decompose (last_id (GFlake (fst (next_ids f h))))) < to_flake_time t1' - to_flake_time (start_of st) ->
  forall i j, In i (first_id (GFlake f) :: somes (snd (next_ids f h))) -> In j (first_id (GFlake f') :: somes (snd (next_ids f' h'))) -> i < j.
Proof. exact restart_later. Qed.
Example C28_restart_later_ex : exists f', new_generator ex_set (ex_now + 20000000) (ex_now + 20000000) ex_now = Some f' /\
  p_time (decompose (last_id (GFlake (fst (next_ids ex_flake ex_hist))))) = 90540800009 /\
  to_flake_time (ex_now + 20000000) - to_flake_time (start_of ex_set) = 90540800020.
Proof. eexists. vm_compute. repeat split; reflexivity. Qed.

(** ** C29: false of the code.  Two generators with the same settings created in
    the same millisecond (a second generator in the process, or a restart after
    the clock was set back) hand out the same IDs. *)
Definition ex_flake2 : flake := match new_generator ex_set (ex_now + 1000) (ex_now + 1000) ex_now with Some f => f | None => blank ex_set 0 end.
Theorem C29_any_restart_refuted : exists f f', new_generator ex_set ex_now ex_now ex_now = Some f /\
  new_generator ex_set (ex_now + 1000) (ex_now + 1000) ex_now = Some f' /\
  somes (snd (next_ids f [(ex_now + 2000, 0)])) = somes (snd (next_ids f' [(ex_now + 3000, 0)])) /\ first_id (GFlake f) = first_id (GFlake f').
Proof. exists ex_flake, ex_flake2. vm_compute. repeat split; reflexivity. Qed.

(** What does hold: an ID can only repeat if the clock, at the restart, was not
    ahead of the earlier generator's last ID. *)
Theorem C29_repeat_means_clock_partial : forall st t0 t1 t2 f h t0' t1' t2' f' h' i,
  good_settings st -> int64 t1 -> readings h -> Z.of_nat (length h) < 2 ^ 61 -> new_generator st t0 t1 t2 = Some f ->
  int64 t1' -> readings h' -> Z.of_nat (length h') < 2 ^ 61 -> new_generator st t0' t1' t2' = Some f' ->
  In i (first_id (GFlake f) :: somes (snd (next_ids f h))) -> In i (first_id (GFlake f') :: somes (snd (next_ids f' h'))) ->
  to_flake_time t1' - to_flake_time (start_of st) <= p_time (decompose (last_id (GFlake (fst (next_ids f h))))).
Proof.
  intros st t0 t1 t2 f h t0' t1' t2' f' h' i H1 H2 H3 H4 H5 H6 H7 H8 H9 Hi Hj.
  destruct (Z.le_gt_cases (to_flake_time t1' - to_flake_time (start_of st)) (p_time (decompose (last_id (GFlake (fst (next_ids f h))))))) as [L|L]; [exact L|].
  exfalso. pose proof (restart_later _ _ _ _ _ _ _ _ _ _ _ H1 H2 H3 H4 H5 H6 H7 H8 H9 L i i Hi Hj). lia.
Qed.

(** ** C30 *)
Theorem C30_panics_forever : forall st t0 t1 t2 f h l1 l2, good_settings st -> int64 t1 -> readings h -> Z.of_nat (length h) < 2 ^ 61 ->
  new_generator st t0 t1 t2 = Some f -> snd (next_ids f h) = l1 ++ None :: l2 -> Forall (fun r => r = None) l2.
Proof. intros st t0 t1 t2 f h l1 l2 H1 H2 H3 H4 H5. destruct (new_fine _ _ _ _ _ H1 H2 H5) as (F1 & _). apply (panic_forever h 1 f); auto; lia. Qed.
Theorem C30_over_limit : forall st t0 t1 t2 f h s1 s2, good_settings st -> int64 t1 -> readings h -> Z.of_nat (length h) < 2 ^ 61 ->
  new_generator st t0 t1 t2 = Some f -> int64 s1 -> 2 ^ 41 <= to_flake_time s1 - to_flake_time (start_of st) ->
  n_id (next_id (fst (next_ids f h)) s1 s2) = None.
Proof.
  intros st t0 t1 t2 f h s1 s2 H1 H2 H3 H4 H5 H6 H7. destruct (new_fine _ _ _ _ _ H1 H2 H5) as (_ & F2 & _).
  pose proof (gen_ids st t0 t1 t2 f h H1 H2 H3 H4 H5) as G. destruct (next_ids f h) as [g l]. destruct G as (_ & _ & _ & _ & G5 & _ & G7).
  cbn [fst]. eapply over_limit_panics; [exact G7|lia|exact H6|]. rewrite G5, F2. exact H7.
Qed.
Definition ex_late : Z := default_start + 2 ^ 41 * 1000000.
Example C30_ex : int64 ex_late /\ snd (next_ids ex_flake [(ex_late - 1000000, 0); (ex_late, 0); (ex_now, ex_now)]) =
  [Some (packed (2 ^ 41 - 1) 0 5); None; None].
Proof. vm_compute. repeat split; reflexivity || discriminate. Qed.

(** ** C31: false of the code for generators of other packages, although db.go
    itself imports the generator of effective-security/x/flake: its IDs are
    dated from 1970. *)
Theorem C31_foreign_refuted : provider_id_time (GOther ex_flake) (first_id (GFlake ex_flake)) = ex_now - default_start.
Proof. vm_compute. reflexivity. Qed.
(** True for this package's generator: C26 and C27; the ID's time is the
    generator's clock at the call, or later by the sequence overflow only. *)
Theorem C31_own_partial : forall st t0 t1 t2 f h s1 s2 i, good_settings st -> int64 t1 -> readings h -> Z.of_nat (length h) < 2 ^ 60 ->
  new_generator st t0 t1 t2 = Some f -> int64 s1 -> int64 s2 ->
  let f1 := fst (next_ids f h) in f_elapsed f1 < to_flake_time s1 - f_start f1 ->
  n_id (next_id f1 s1 s2) = Some i -> provider_id_time (GFlake f1) i = to_flake_time s1 * 1000000.
Proof. exact own_time. Qed.
Example C31_own_partial_ex : f_elapsed ex_flake < to_flake_time (ex_now + 7000000) - f_start ex_flake /\
  n_id (next_id ex_flake (ex_now + 7000000) 0) = Some (packed 90540800007 0 5) /\
  provider_id_time (GFlake ex_flake) (packed 90540800007 0 5) = ex_now + 7000000.
Proof. vm_compute. repeat split; reflexivity. Qed.

(** ** C78 *)
Theorem C78_first_last : forall st t0 t1 t2 f h, good_settings st -> int64 t1 -> readings h -> Z.of_nat (length h) < 2 ^ 61 ->
  new_generator st t0 t1 t2 = Some f ->
  first_id (GFlake (fst (next_ids f h))) = first_id (GFlake f) /\ last_id (GFlake f) = first_id (GFlake f) /\
  last_id (GFlake (fst (next_ids f h))) = last (somes (snd (next_ids f h))) (first_id (GFlake f)).
Proof.
  intros st t0 t1 t2 f h H1 H2 H3 H4 H5. destruct (new_fine _ _ _ _ _ H1 H2 H5) as (_ & _ & _ & _ & _ & _ & _ & F8 & _).
  pose proof (gen_ids st t0 t1 t2 f h H1 H2 H3 H4 H5) as G. destruct (next_ids f h) as [g l]. destruct G as (_ & _ & G3 & G4 & _).
  cbn [fst snd first_id last_id]. auto.
Qed.
Example C78_first_last_ex : last_id (GFlake (fst (next_ids ex_flake ex_hist))) = 379755639640948741.
Proof. vm_compute. reflexivity. Qed.

(** ** C79 *)
(** NewIDGenerator: which settings it refuses, and the identity of the result. *)
Theorem C79_refuses : forall st t0 t1 t2 f, good_settings st -> int64 t1 -> new_generator st t0 t1 t2 = Some f ->
  start_of st <= t0 /\ s_machine st = Some (f_machine f) /\ s_check st (f_machine f) = true /\ f_start f = to_flake_time (start_of st).
Proof. intros st t0 t1 t2 f H1 H2 H3. destruct (new_fine _ _ _ _ _ H1 H2 H3) as (_ & F2 & F3 & F4 & F5 & _). auto. Qed.
Theorem C79_accepts : forall st t0 t1 t2 m, good_settings st -> int64 t1 -> start_of st <= t0 -> s_machine st = Some m -> s_check st m = true ->
  to_flake_time t1 - to_flake_time (start_of st) < 2 ^ 41 -> exists f, new_generator st t0 t1 t2 = Some f.
Proof. exact accepts. Qed.
Example C79_ex : new_generator (mkSettings (Some (ex_now + 1)) (Some 5) (fun _ => true)) ex_now ex_now ex_now = None /\
  new_generator (mkSettings None None (fun _ => true)) ex_now ex_now ex_now = None /\
  new_generator (mkSettings None (Some 5) (fun m => m =? 6)) ex_now ex_now ex_now = None.
Proof. vm_compute. repeat split; reflexivity. Qed.

(** ** C80: false of the code.  The default machine ID is the low 16 bits of the
    first non-loopback address, so two hosts of different networks share it. *)
Definition v4 (a b c d : Z) : iface_addr := mkIface true (v4_prefix ++ [a; b; c; d]).
Theorem C80_default_machine_refuted :
  default_machine_id (B "/app/server") (Some [v4 127 0 0 1; v4 10 1 7 9]) = default_machine_id (B "/app/server") (Some [v4 127 0 0 1; v4 10 2 7 9]).
Proof. vm_compute. reflexivity. Qed.
(** Proved part: it is always a 16-bit number, and outside test runs two hosts
    whose first non-loopback addresses end differently have different IDs. *)
Theorem C80_default_machine_partial : forall arg0 l l' ip ip', is_test_run arg0 = false -> first_iface l = Some ip -> first_iface l' = Some ip' ->
  0 <= nth 14 ip 0 < 256 -> 0 <= nth 15 ip 0 < 256 -> 0 <= nth 14 ip' 0 < 256 -> 0 <= nth 15 ip' 0 < 256 ->
  (default_machine_id arg0 (Some l) = default_machine_id arg0 (Some l') <-> nth 14 ip 0 = nth 14 ip' 0 /\ nth 15 ip 0 = nth 15 ip' 0).
Proof. exact default_machine. Qed.
Theorem C80_default_machine_range_partial : forall arg0 addrs, uint16 (default_machine_id arg0 addrs).
Proof. exact default_machine_range. Qed.
Example C80_ex : is_test_run (B "/app/server") = false /\ first_iface [v4 127 0 0 1; v4 10 1 7 9] = Some (v4_prefix ++ [10; 1; 7; 9]) /\
  default_machine_id (B "/app/server") (Some [v4 127 0 0 1; v4 10 1 7 9]) = 7 * 256 + 9.
Proof. vm_compute. repeat split; reflexivity. Qed.

(** Which address that is: the first one that is a network address and not a
    loopback one, whatever comes after it. *)
Theorem C80_first_usable_partial : forall l ip, Forall (fun a => length (ia_ip a) = 16%nat) l ->
  (first_iface l = Some ip <-> exists l1 a l2, l = l1 ++ a :: l2 /\ usable a /\ ip = ia_ip a /\ Forall (fun b => ~ usable b) l1).
Proof.
  intros l ip L. rewrite first_iface_spec. unfold usable, loopback_ip.
  assert (G : forall a, length (ia_ip a) = 16%nat -> (is_loopback (ia_ip a) = false <-> ~ loopback_ip (ia_ip a))).
  { intros a La. pose proof (loopback_spec _ La) as X. unfold loopback_ip. destruct (is_loopback (ia_ip a)); split; intros H; try congruence; [destruct H; apply X; reflexivity|]. intros K. apply X in K. discriminate K. }
  split; intros (l1 & a & l2 & -> & H); exists l1, a, l2; (split; [reflexivity|]); apply Forall_app in L; destruct L as [L1 L2]; inversion L2 as [|? ? La _]; subst.
  - destruct H as (N & Lb & -> & F). split; [split; [exact N|apply G; assumption]|]. split; [reflexivity|]. rewrite Forall_forall in *. intros b I [Nb Kb]. destruct (F _ I) as [X|X]; [congruence|]. destruct (G b (L1 _ I)) as [_ G2]. rewrite (G2 Kb) in X. discriminate X.
  - destruct H as ((N & Lb) & -> & F). split; [exact N|]. split; [apply G; assumption|]. split; [reflexivity|]. rewrite Forall_forall in *. intros b I. destruct (ia_net b) eqn:Nb; [right|left; reflexivity]. destruct (is_loopback (ia_ip b)) eqn:X; [reflexivity|]. destruct (F _ I). split; [exact Nb|]. apply (G b (L1 _ I)). exact X.
Qed.
(** With no such address every host gets the same machine ID. *)
Theorem C80_no_address_refuted : forall arg0 l, is_test_run arg0 = false -> first_iface l = None -> default_machine_id arg0 (Some l) = 0 /\ default_machine_id arg0 None = 0.
Proof. intros arg0 l T E. unfold default_machine_id. rewrite T, E. split; reflexivity. Qed.

(** ** C126 How long a call may block *)
(** With a clock that does not go back a call sleeps at most to the start of the
    next millisecond. *)
Theorem C126_short_sleep_partial : forall st t0 m h, good_settings st -> s_machine st = Some m -> start_of st <= t0 -> 0 <= t0 ->
  Forall (fun x => int64 (snd x)) h -> Z.of_nat (length h) < 2 ^ 61 -> timely_run (blank st m) t0 h ->
  forall h1 t1 t2 t3 h2 d, h = h1 ++ (t1, t2, t3) :: h2 ->
  n_sleep (next_id (fst (next_ids (blank st m) (map fst h1))) t1 t2) = Some d -> 0 < d <= 1000000 /\ (t2 + d) mod 1000000 = 0.
Proof. exact short_sleep. Qed.
(** False of the code when the clock is set back: the 64th call on the old
    millisecond sleeps as long as the step, with the mutex held. *)
Theorem C126_clock_back_refuted : forall st t0 t1 t2 f h s1 s2 k, good_settings st -> int64 t1 -> readings h -> Z.of_nat (length h) < 2 ^ 41 -> new_generator st t0 t1 t2 = Some f ->
  let f1 := fst (next_ids f h) in f_seq f1 = 63 -> int64 s1 -> 0 <= s2 -> 0 <= k < 2 ^ 42 -> to_flake_time s1 = f_start f1 + f_elapsed f1 - k ->
  exists d, n_sleep (next_id f1 s1 s2) = Some d /\ k * 1000000 < d <= (k + 1) * 1000000.
Proof.
  intros st t0 t1 t2 f h s1 s2 k H1 H2 H3 H4 H5 f1 HS. pose proof (gen_ids st t0 t1 t2 f h H1 H2 H3 ltac:(lia) H5) as G. subst f1. destruct (next_ids f h) as [g l]. cbn [fst] in *. destruct G as (_ & _ & _ & _ & _ & _ & G).
  intros Hs1 Hs2 Hk HC. eapply long_sleep; eauto. lia.
Qed.
Example C126_ex : let f1 := fst (next_ids ex_flake (repeat (ex_now, ex_now) 63)) in f_seq f1 = 63 /\ to_flake_time (ex_now - 3600 * 1000000000) = f_start f1 + f_elapsed f1 - 3600000 /\
  n_sleep (next_id f1 (ex_now - 3600 * 1000000000) (ex_now - 3600 * 1000000000)) = Some 3600001000000.
Proof. vm_compute. repeat split; reflexivity. Qed.

(** Both directions in one statement: it panics exactly in the four cases. *)
Theorem C79_panics_iff : forall st t0 t1 t2, good_settings st -> int64 t1 ->
  (new_generator st t0 t1 t2 = None <->
   t0 < start_of st \/ s_machine st = None \/ (exists m, s_machine st = Some m /\ s_check st m = false) \/
   2 ^ 41 <= to_flake_time t1 - to_flake_time (start_of st)).
Proof.
  intros st t0 t1 t2 HS Ht. split.
  - intros H. destruct (Z_lt_le_dec t0 (start_of st)) as [|H0]; [auto|]. right. destruct (s_machine st) as [m|] eqn:Em; [|auto]. right.
    destruct (s_check st m) eqn:Ec; [|left; eauto]. right. destruct (Z_lt_le_dec (to_flake_time t1 - to_flake_time (start_of st)) (2 ^ 41)) as [H1|]; [|auto].
    destruct (accepts st t0 t1 t2 m HS Ht H0 Em Ec H1) as [f Hf]. congruence.
  - intros H. destruct (new_generator st t0 t1 t2) as [f|] eqn:E; [exfalso|reflexivity].
    destruct (new_fine _ _ _ _ _ HS Ht E) as (_ & F2 & F3 & F4 & F5 & _ & F7 & _ & _ & F10).
    destruct H as [H|[H|[(m & H & Hc)|H]]]; [lia|congruence|rewrite F3 in H; injection H as <-; congruence|rewrite F2 in F10; lia].
Qed.
Example C79_panics_iff_ex : good_settings (mkSettings None (Some 5) (fun _ => true)) /\ int64 ex_now /\
  2 ^ 41 <= to_flake_time (ex_now + 2 ^ 41 * 1000000) - to_flake_time (start_of (mkSettings None (Some 5) (fun _ => true))) /\ int64 (ex_now + 2 ^ 41 * 1000000) /\
  (match new_generator (mkSettings None (Some 5) (fun _ => true)) ex_now ex_now ex_now with Some _ => true | None => false end) = true.
Proof.
  split; [split; [discriminate|intros m [= <-]; unfold uint16; lia]|]. split; [unfold int64, ex_now; lia|]. split; [vm_compute; discriminate|].
  split; [unfold int64, ex_now; lia|]. vm_compute; reflexivity.
Qed.


(** ** What the defaults are *)

(* the Gregorian leap years *)
Definition leap_year (y : nat) : bool := (Nat.eqb (y mod 4) 0 && negb (Nat.eqb (y mod 100) 0)) || Nat.eqb (y mod 400) 0.
(* nanoseconds from 1970-01-01 to the first of January of the year 1970 + n *)
Definition new_year_ns (n : nat) : Z := (Z.of_nat n * 365 + Z.of_nat (length (filter leap_year (seq 1970 n)))) * 86400 * 1000000000.

(* pkg/flake/flake.go:56,61: without a start time the IDs count from 2021-01-01 UTC *)
Theorem C79_default_start : forall m chk, start_of (mkSettings None m chk) = new_year_ns (2021 - 1970).
Proof. intros m chk. vm_compute. reflexivity. Qed.

Theorem C80_value_partial : forall arg0 l ip, is_test_run arg0 = false -> first_iface l = Some ip ->
  0 <= nth 14 ip 0 < 256 -> 0 <= nth 15 ip 0 < 256 -> default_machine_id arg0 (Some l) = 256 * nth 14 ip 0 + nth 15 ip 0.
Proof.
  intros arg0 l ip Ht Hf H14 H15. unfold default_machine_id. rewrite Ht, Hf.
  rewrite Z.shiftl_mul_pow2 by lia. change (2 ^ 8) with 256.
  set (a := nth 14 ip 0) in *. set (b := nth 15 ip 0) in *. clearbody a b.
  change maskMachineID with (Z.ones 16). rewrite Z.land_ones by lia. unfold u16, wrap_u.
  change (2 ^ 16) with 65536.
  rewrite (Z.mod_small (a * 256)) by lia. rewrite (Z.mod_small (a * 256 + b)) by lia. rewrite Z.mod_small by lia. lia.
Qed.

(** A program whose path mentions neither "test" nor "debug" is not a test run:
    the hash of the program's name is used for the others, whatever the addresses. *)
Definition mentions (w s : bytes) : Prop := exists a b, s = a ++ w ++ b.
Definition fnv_1a (s : bytes) : Z := fold_left (fun h c => (Z.lxor h (Z.of_nat (nat_of_ascii c)) * 16777619) mod 2 ^ 32) s 2166136261.
Theorem C80_program_partial : forall arg0 addrs, mentions (B "test") arg0 \/ mentions (B "debug") arg0 ->
  default_machine_id arg0 addrs = fnv_1a arg0 mod 2 ^ 16.
Proof.
  intros arg0 addrs H. unfold default_machine_id.
  assert (E : is_test_run arg0 = true).
  { unfold is_test_run. apply orb_true_iff. rewrite !contains_spec. exact H. }
  rewrite E. unfold machine_from_program, u16, wrap_u, fnv_1a. f_equal. clear.
  generalize 2166136261. induction arg0 as [|c r IH]; intros h; [reflexivity|]. cbn [fnv32a fold_left]. apply IH.
Qed.
Theorem C80_not_a_test_partial : forall arg0 l ip, ~ mentions (B "test") arg0 -> ~ mentions (B "debug") arg0 -> first_iface l = Some ip ->
  0 <= nth 14 ip 0 < 256 -> 0 <= nth 15 ip 0 < 256 -> default_machine_id arg0 (Some l) = 256 * nth 14 ip 0 + nth 15 ip 0.
Proof.
  intros arg0 l ip H1 H2. apply C80_value_partial. unfold is_test_run. apply orb_false_iff.
  split; apply not_true_is_false; rewrite contains_spec; assumption.
Qed.
(* the published test vectors of 32-bit FNV-1a *)
Example C80_fnv_ex : fnv_1a [] = 2166136261 /\ fnv_1a (B "a") = 3826002220 /\ fnv_1a (B "foobar") = 3214735720 /\ mentions (B "test") (B "/tmp/flake.test") /\ default_machine_id (B "/tmp/flake.test") None = fnv_1a (B "/tmp/flake.test") mod 2 ^ 16.
Proof. repeat split; try (vm_compute; reflexivity). exists (B "/tmp/flake."), []. reflexivity. Qed.

(** ** Assumptions *)
Print Assumptions C23_increasing.
Print Assumptions C24_concurrent_unique.
Print Assumptions C24_alone_is_next_id.
Print Assumptions C25_machines_disjoint.
Print Assumptions C26_decompose.
Print Assumptions C26_recombine.
Print Assumptions C27_not_ahead.
Print Assumptions C27_new.
Print Assumptions C28_restart_later.
Print Assumptions C29_any_restart_refuted.
Print Assumptions C29_repeat_means_clock_partial.
Print Assumptions C30_panics_forever.
Print Assumptions C30_over_limit.
Print Assumptions C31_foreign_refuted.
Print Assumptions C31_own_partial.
Print Assumptions C78_first_last.
Print Assumptions C79_refuses.
Print Assumptions C79_accepts.
Print Assumptions C80_default_machine_refuted.
Print Assumptions C80_default_machine_partial.
Print Assumptions C80_default_machine_range_partial.
Print Assumptions C80_first_usable_partial.
Print Assumptions C80_no_address_refuted.
Print Assumptions C126_short_sleep_partial.
Print Assumptions C126_clock_back_refuted.
Print Assumptions C79_panics_iff.
Print Assumptions C79_default_start.
Print Assumptions C80_value_partial.
Print Assumptions C80_program_partial.
Print Assumptions C80_not_a_test_partial.
