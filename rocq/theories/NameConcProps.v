(** Statements cached under the names of parameter sets, asked for by several
    goroutines at once: xdb params.go:106-144 with xsql/cache.go:22-30. *)
From Coq Require Import List Ascii String ZArith Lia Bool.
Import ListNotations.
From Verif Require Import GoBase GoBaseFacts TypeModel XsqlModel XsqlSpec ParamModel ParamSpec ParamProps ConcModel ConcProofs ConcProps NameCacheProps.
Open Scope Z_scope.

(** One goroutine per request, all on one dialect. *)
Definition goroutines (mm : bytes -> Z) (rs : list request) : list task := map (fun r => TGet (key_of mm r) (rq_build r)) rs.

Lemma alone_own mm d r : fresh_build (is_pg d) r -> get_cached d (key_of mm r) = None ->
  alone d (TGet (key_of mm r) (rq_build r)) = render (is_pg d) (rq_build r).
Proof.
  intros [Hq Rq] C. cbn [alone]. destruct (render (is_pg d) (rq_build r)) as [s|] eqn:R; [|congruence].
  rewrite (@goc_miss d _ (rq_build r) s (key_nonempty mm r) Hq C R). reflexivity.
Qed.

(** ** C189, under every schedule *)
(** A goroutine that returns has the text of some request with its name. *)
Theorem C189_any_schedule_partial : forall mm d rs sched d' p i a,
  (forall r, In r rs -> fresh_build (is_pg d) r) -> (forall r, In r rs -> get_cached d (key_of mm r) = None) ->
  prun d (start (goroutines mm rs)) sched = (d', p) -> result p i a ->
  exists r r0, nth_error rs i = Some r /\ In r0 rs /\ key_of mm r0 = key_of mm r /\ a = render (is_pg d) (rq_build r0).
Proof.
  intros mm d rs sched d' p i a H C E R.
  destruct (C128_some_text_partial d (goroutines mm rs) sched d' p i a) as (t & t' & Nt & It' & K & Ea); [|exact E|exact R|].
  { intros t I. apply in_map_iff in I as (r & <- & _). apply key_nonempty. }
  unfold goroutines in Nt. rewrite nth_error_map in Nt. destruct (nth_error rs i) as [r|] eqn:Hi; [|discriminate]. injection Nt as <-.
  apply in_map_iff in It' as (r0 & <- & I0). exists r, r0. split; [reflexivity|]. split; [exact I0|]. split; [exact K|].
  rewrite Ea. apply alone_own; [apply H, I0|apply C, I0].
Qed.
(** So with plain calls, and texts that follow from the shape of the parameters, every
    goroutine has its own text, whatever the schedule. *)
Theorem C189_own_any_schedule_partial : forall mm d rs sched d' p i a,
  (forall r, In r rs -> fresh_build (is_pg d) r) -> (forall r, In r rs -> get_cached d (key_of mm r) = None) ->
  (forall r, In r rs -> plain_calls r) ->
  (forall x y, In x rs -> In y rs -> same_shape x y -> render (is_pg d) (rq_build x) = render (is_pg d) (rq_build y)) ->
  prun d (start (goroutines mm rs)) sched = (d', p) -> result p i a ->
  exists r, nth_error rs i = Some r /\ a = render (is_pg d) (rq_build r).
Proof.
  intros mm d rs sched d' p i a H C P S E R. destruct (C189_any_schedule_partial mm d rs sched d' p i a H C E R) as (r & r0 & Hi & I0 & K & Ea).
  exists r. split; [exact Hi|]. rewrite Ea. assert (I : In r rs) by (eapply nth_error_In; exact Hi). apply S; [exact I0|exact I|].
  destruct (P r0 I0) as (A1 & A2 & A3), (P r I) as (B1 & B2 & B3).
  exact (proj1 (C55_name mm (rq_query r0) (rq_query r) _ _ A1 B1 A2 B2 A3 B3) K).
Qed.
(** Two goroutines that ask for all rows and for the second page, one step each in turn. *)
Example C189_schedule_ex : exists d' p, prun ex_d (start (goroutines (fun _ => 0) [ex_all; ex_next; ex_all])) [0; 1; 2; 0; 1; 2; 0; 1; 2]%nat = (d', p) /\
  map snd p = [TDone (render false (rq_build ex_all)); TDone (render false (rq_build ex_next)); TDone (render false (rq_build ex_all))] /\
  length (d_cache d') = 3%nat /\ render false (rq_build ex_all) <> None.
Proof.
  assert (RA : render false (rq_build ex_all) = Some (B "SELECT x FROM t WHERE a = ?")) by (vm_compute; reflexivity).
  eexists _, _. split; [vm_compute; reflexivity|]. split; [vm_compute; reflexivity|]. split; [reflexivity|]. rewrite RA. discriminate.
Qed.

(** Exactly: whatever the schedule every goroutine has its own text iff requests of one
    name have one text. *)
Lemma pstep_at : forall p d i t x d' x', nth_error p i = Some (t, x) -> tstep d t x = (d', x') ->
  exists p', pstep d p i = (d', p') /\ nth_error p' i = Some (t, x') /\ forall j, j <> i -> nth_error p' j = nth_error p j.
Proof.
  induction p as [|[t0 x0] p IH]; intros d i t x d' x' N E; [destruct i; discriminate|]. destruct i as [|i]; cbn [nth_error pstep] in *.
  - injection N as -> ->. rewrite E. eexists. split; [reflexivity|]. split; [reflexivity|]. intros [|j] J; [congruence|reflexivity].
  - destruct (IH d i t x d' x' N E) as (p' & P & A & O). rewrite P. eexists. split; [reflexivity|]. split; [exact A|].
    intros [|j] J; [reflexivity|]. cbn [nth_error]. apply O. congruence.
Qed.
Theorem C189_schedules_exact_partial : forall mm d rs,
  (forall r, In r rs -> fresh_build (is_pg d) r) -> (forall r, In r rs -> get_cached d (key_of mm r) = None) ->
  ((forall sched d' p i a r, prun d (start (goroutines mm rs)) sched = (d', p) -> result p i a -> nth_error rs i = Some r -> a = render (is_pg d) (rq_build r)) <->
   (forall x y, In x rs -> In y rs -> key_of mm x = key_of mm y -> render (is_pg d) (rq_build x) = render (is_pg d) (rq_build y))).
Proof.
  intros mm d rs H C. split.
  - intros A x y Ix Iy K. apply In_nth_error in Ix as [i Hi]. apply In_nth_error in Iy as [j Hj]. destruct (Nat.eq_dec i j) as [->|N]; [congruence|].
    assert (Ix : In x rs) by (eapply nth_error_In; exact Hi). destruct (H x Ix) as [Sx Rx]. pose proof (C x Ix) as Cx.
    destruct (render (is_pg d) (rq_build x)) as [s|] eqn:Es; [|congruence].
    set (tx := TGet (key_of mm x) (rq_build x)). set (ty := TGet (key_of mm y) (rq_build y)).
    assert (B : forall k r, nth_error rs k = Some r -> nth_error (start (goroutines mm rs)) k = Some (TGet (key_of mm r) (rq_build r), TBegin)).
    { intros k r E. unfold start, goroutines. rewrite !nth_error_map, E. reflexivity. }
    assert (KO : cache_key (own_stmt tx) = key_of mm x) by (apply own_key; exact (key_nonempty mm x)).
    destruct (pstep_at _ d i tx TBegin d TCalled (B i x Hi)) as (p1 & P1 & A1 & O1); [cbn [tstep tx]; rewrite Cx; reflexivity|].
    destruct (pstep_at p1 d i tx TCalled d (TStore s) A1) as (p2 & P2 & A2 & O2).
    { cbn [tstep]. unfold load_step. rewrite KO. change (st_sql (own_stmt tx)) with (st_sql (rq_build x)). rewrite Sx, Cx.
      change (render (is_pg d) (own_stmt tx)) with (render (is_pg d) (rq_build x)). rewrite Es. reflexivity. }
    destruct (pstep_at p2 d i tx (TStore s) (put_cached d (key_of mm x) s) (TDone (Some s)) A2) as (p3 & P3 & A3 & O3); [cbn [tstep]; rewrite KO; reflexivity|].
    destruct (pstep_at p3 (put_cached d (key_of mm x) s) j ty TBegin (put_cached d (key_of mm x) s) (TDone (Some s))) as (p4 & P4 & A4 & O4).
    { rewrite O3, O2, O1 by congruence. exact (B j y Hj). }
    { cbn [tstep ty]. rewrite <- K, assoc_put, (proj2 (beqb_eq _ _) eq_refl). reflexivity. }
    apply (A [i; i; i; j] (put_cached d (key_of mm x) s) p4 j (Some s) y); [|exists ty; exact A4|exact Hj].
    cbn [prun]. rewrite P1, P2, P3, P4. reflexivity.
  - intros S sched d' p i a r E R Hi. destruct (C189_any_schedule_partial mm d rs sched d' p i a H C E R) as (r' & r0 & Hi' & I0 & K & ->).
    assert (r' = r) by congruence. subst r'. apply S; [exact I0|eapply nth_error_In; exact Hi|exact K].
Qed.

(** ** Assumptions *)
Print Assumptions C189_any_schedule_partial.
Print Assumptions C189_own_any_schedule_partial.
Print Assumptions C189_schedules_exact_partial.
