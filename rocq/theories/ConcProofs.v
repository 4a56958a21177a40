(** Facts about goroutines sharing a dialect or a lazily cached string. *)
From Verif Require Import GoBase GoBaseFacts XsqlModel ConcModel.
From Coq Require Import Lia.
Open Scope Z_scope.

(** ** Specification *)
(** What a call returns when it is the only one. *)
Definition alone (d : dialect) (t : task) : option bytes :=
  match t with
  | TString q => match stmt_string d q with Some (_, _, s) => Some s | None => None end
  | TGet n c => match get_or_create d n c with Some (_, s, _) => Some s | None => None end
  end.
(** The key under which a call looks its text up. *)
Definition task_key (t : task) : bytes := match t with TString q => cache_key q | TGet n _ => n end.
(** A statement that has not been rendered (String() of a rendered one reads
    nothing shared); a query with a name. *)
Definition ready (t : task) : Prop := match t with TString q => st_sql q = [] | TGet n _ => n <> [] end.
(** [r] is the result of goroutine [i]. *)
Definition result (p : pool) (i : nat) (r : option bytes) : Prop := exists t, nth_error p i = Some (t, TDone r).
Definition finished (x : task * tstate) : bool := match snd x with TDone _ => true | _ => false end.

Lemma assoc_put d k v j : get_cached (put_cached d k v) j = if beqb j k then Some v else get_cached d j.
Proof. reflexivity. Qed.
Lemma own_key t : ready t -> cache_key (own_stmt t) = task_key t.
Proof.
  destruct t as [q|n c]; [reflexivity|]. cbn [own_stmt task_key ready]. intros H. unfold cache_key, strings_coalesce, set_name. cbn [st_name st_buf].
  destruct n; [congruence|reflexivity].
Qed.

(** What some call with this key returns when it is the only one. *)
Definition of_key (d0 : dialect) (ts : list task) (k : bytes) (r : option bytes) : Prop :=
  exists t, In t ts /\ task_key t = k /\ r = alone d0 t.
Definition inv (d0 : dialect) (ts : list task) (d : dialect) (p : pool) : Prop :=
  is_pg d = is_pg d0 /\
  (forall k, get_cached d0 k <> None -> get_cached d k <> None) /\
  (forall t s, In t ts -> get_cached d (task_key t) = Some s -> of_key d0 ts (task_key t) (Some s)) /\
  (forall t x, In (t, x) p -> In t ts /\ match x with
                                      | TBegin => True
                                      | TCalled => get_cached d0 (task_key t) = None /\ (match t with TGet _ _ => True | _ => False end)
                                      | TStore s => alone d0 t = Some s
                                      | TDone r => of_key d0 ts (task_key t) r
                                      end).

Lemma alone_load d0 ts d t : In t ts -> ready t -> is_pg d = is_pg d0 ->
  (get_cached d0 (task_key t) <> None -> get_cached d (task_key t) <> None) ->
  (forall s, get_cached d (task_key t) = Some s -> of_key d0 ts (task_key t) (Some s)) ->
  (match t with TGet _ _ => get_cached d0 (task_key t) = None | _ => True end) ->
  match load_step d (own_stmt t) with TStore s => alone d0 t = Some s | TDone r => of_key d0 ts (task_key t) r | _ => False end.
Proof.
  intros Hin Hn Hp Hk Hc Hg. unfold load_step.
  destruct (is_empty (st_sql (own_stmt t))) eqn:E.
  - rewrite (own_key _ Hn). destruct (get_cached d (task_key t)) as [s|] eqn:G.
    + apply Hc. reflexivity.
    + assert (G0 : get_cached d0 (task_key t) = None).
      { destruct (get_cached d0 (task_key t)); [exfalso; apply Hk; [congruence|reflexivity]|reflexivity]. }
      assert (A : alone d0 t = render (is_pg d) (own_stmt t)).
      { rewrite Hp. destruct t as [q|n c]; cbn [alone own_stmt task_key] in *.
        - unfold stmt_string. rewrite E, G0. destruct (render (is_pg d0) q); reflexivity.
        - unfold get_or_create. rewrite G0. unfold stmt_string. rewrite E.
          pose proof (own_key (TGet n c) Hn) as K. cbn [own_stmt task_key] in K. rewrite K, G0.
          destruct (render (is_pg d0) (set_name c n)); reflexivity. }
      destruct (render (is_pg d) (own_stmt t)); [assumption|exists t; auto].
  - exists t. split; [assumption|split; [reflexivity|]]. destruct t as [q|n c]; cbn [alone own_stmt task_key] in *.
    + unfold stmt_string. rewrite E. reflexivity.
    + unfold get_or_create. rewrite Hg. unfold stmt_string. rewrite E. reflexivity.
Qed.

Lemma tstep_inv d0 ts d p t x d' x' :
  (forall t, In t ts -> ready t) ->
  inv d0 ts d ((t, x) :: p) -> tstep d t x = (d', x') -> inv d0 ts d' ((t, x') :: p).
Proof.
  intros Hnm (I1 & I2 & I3 & I4) H.
  destruct (I4 t x (or_introl eq_refl)) as [Ht Hx].
  assert (Hother : forall d', (forall k, get_cached d k <> None -> get_cached d' k <> None) -> True) by auto.
  assert (L : forall y, In t ts -> (match t with TGet _ _ => get_cached d0 (task_key t) = None | _ => True end) -> y = load_step d (own_stmt t) ->
    inv d0 ts d ((t, y) :: p)).
  { intros y _ Hg ->. split; [assumption|split; [assumption|split; [assumption|]]].
    intros t1 x1 [E|Hin]; [|apply I4; right; assumption]. injection E as <- <-. split; [assumption|].
    pose proof (alone_load d0 ts d t Ht (Hnm _ Ht) I1 (I2 _) (fun s => I3 t s Ht) Hg) as A.
    destruct (load_step d (own_stmt t)); auto; contradiction. }
  destruct x as [| |s|r]; cbn [tstep] in H.
  - destruct t as [q|n c].
    + injection H as <- <-. apply (L _ Ht I eq_refl).
    + injection H as <- <-. destruct (get_cached d n) as [s|] eqn:G.
      * split; [assumption|split; [assumption|split; [assumption|]]].
        intros t1 x1 [E|Hin]; [|apply I4; right; assumption]. injection E as <- <-. split; [assumption|].
        apply (I3 (TGet n c) s Ht G).
      * split; [assumption|split; [assumption|split; [assumption|]]].
        intros t1 x1 [E|Hin]; [|apply I4; right; assumption]. injection E as <- <-. split; [assumption|]. split; [|trivial].
        cbn [task_key]. destruct (get_cached d0 n) eqn:G0; [|reflexivity]. exfalso. apply (I2 n); congruence.
  - injection H as <- <-. destruct Hx as [Hx1 Hx2]. destruct t as [q|n c]; [contradiction|]. apply (L _ Ht Hx1 eq_refl).
  - injection H as <- <-. rewrite (own_key _ (Hnm _ Ht)). split; [assumption|split; [|split]].
    + intros k Hk. rewrite assoc_put. destruct (beqb k (task_key t)); [congruence|apply I2; assumption].
    + intros t1 s1 Ht1. rewrite assoc_put. destruct (beqb (task_key t1) (task_key t)) eqn:E.
      * intros G; injection G as <-. apply beqb_eq in E. exists t. split; [assumption|split; [symmetry; assumption|congruence]].
      * apply I3; assumption.
    + intros t1 x1 [E|Hin]; [injection E as <- <-; split; [assumption|exists t; split; [assumption|split; [reflexivity|congruence]]]|]. destruct (I4 t1 x1 (or_intror Hin)) as [A B]. split; assumption.
  - injection H as <- <-. split; [assumption|split; [assumption|split; assumption]].
Qed.

Lemma inv_perm d0 ts d a b p : inv d0 ts d (a :: b :: p) -> inv d0 ts d (b :: a :: p).
Proof.
  intros (I1 & I2 & I3 & I4). split; [assumption|split; [assumption|split; [assumption|]]].
  intros t x H. apply I4. cbn [In] in *. tauto.
Qed.
Lemma inv_in d0 ts d p p' : (forall x, In x p' -> In x p) -> inv d0 ts d p -> inv d0 ts d p'.
Proof. intros H (I1 & I2 & I3 & I4). split; [assumption|split; [assumption|split; [assumption|]]]. intros t x Hin. apply I4, H, Hin. Qed.

Lemma pstep_inv d0 ts (Hnm : forall t, In t ts -> ready t) :
  forall p q d i d' p', inv d0 ts d (p ++ q) -> pstep d p i = (d', p') -> inv d0 ts d' (p' ++ q).
Proof.
  induction p as [|[t x] p IH]; intros q d i d' p' Hi H.
  - destruct i; injection H as <- <-; assumption.
  - destruct i as [|i]; cbn [pstep] in H.
    + destruct (tstep d t x) as [d1 x1] eqn:E. injection H as <- <-. cbn [app]. eapply tstep_inv; eauto.
    + destruct (pstep d p i) as [d1 p1] eqn:E. injection H as <- <-.
      assert (Hq : inv d0 ts d (p ++ (q ++ [(t, x)]))).
      { eapply inv_in; [|exact Hi]. intros y Hy. cbn [app]. rewrite !in_app_iff in Hy. cbn [In] in *. rewrite in_app_iff. tauto. }
      pose proof (IH _ _ _ _ _ Hq E) as R. eapply inv_in; [|exact R].
      intros y Hy. cbn [app In] in Hy. rewrite !in_app_iff in *. cbn [In]. tauto.
Qed.
Lemma prun_inv d0 ts (Hnm : forall t, In t ts -> ready t) :
  forall sched p d d' p', inv d0 ts d p -> prun d p sched = (d', p') -> inv d0 ts d' p'.
Proof.
  induction sched as [|i r IH]; intros p d d' p' Hi H; cbn [prun] in H.
  - injection H as <- <-. assumption.
  - destruct (pstep d p i) as [d1 p1] eqn:E. eapply IH; [|exact H].
    pose proof (pstep_inv d0 ts Hnm p [] d i d1 p1) as R. rewrite !app_nil_r in R. apply R; assumption.
Qed.

(** Tasks stay where they are. *)
Lemma pstep_tasks : forall p d i d' p', pstep d p i = (d', p') -> map fst p' = map fst p.
Proof.
  induction p as [|[t x] p IH]; intros d i d' p' H; [destruct i; injection H as <- <-; reflexivity|].
  destruct i as [|i]; cbn [pstep] in H.
  - destruct (tstep d t x) as [d1 x1]. injection H as <- <-. reflexivity.
  - destruct (pstep d p i) as [d1 p1] eqn:E. injection H as <- <-. cbn [map]. f_equal. eapply IH; eauto.
Qed.
Lemma prun_tasks : forall sched p d d' p', prun d p sched = (d', p') -> map fst p' = map fst p.
Proof.
  induction sched as [|i r IH]; intros p d d' p' H; cbn [prun] in H; [injection H as <- <-; reflexivity|].
  destruct (pstep d p i) as [d1 p1] eqn:E. rewrite (IH _ _ _ _ H). eapply pstep_tasks; eauto.
Qed.
Lemma start_tasks ts : map fst (start ts) = ts.
Proof. unfold start. rewrite map_map. cbn. apply map_id. Qed.

Theorem concurrent_some d ts sched d' p i r :
  (forall t, In t ts -> ready t) ->
  prun d (start ts) sched = (d', p) -> result p i r ->
  exists t, nth_error ts i = Some t /\ of_key d ts (task_key t) r.
Proof.
  intros Hnm H [t Hr]. exists t.
  assert (T : map fst p = ts) by (rewrite (prun_tasks _ _ _ _ _ H); apply start_tasks).
  split; [rewrite <- T, nth_error_map, Hr; reflexivity|].
  assert (I : inv d ts d (start ts)).
  { split; [reflexivity|split; [auto|split]].
    - intros t1 s Ht1 G. exists t1. split; [assumption|split; [reflexivity|]]. destruct t1 as [q|n c]; cbn [task_key alone] in *.
      + specialize (Hnm _ Ht1). cbn [ready] in Hnm. unfold stmt_string. rewrite Hnm. cbn [is_empty]. rewrite G. reflexivity.
      + unfold get_or_create. rewrite G. reflexivity.
    - intros t1 x1 Hin. unfold start in Hin. apply in_map_iff in Hin as (t2 & E & Hin). injection E as <- <-. split; [assumption|trivial]. }
  destruct (prun_inv d ts Hnm sched _ _ _ _ I H) as (_ & _ & _ & I4).
  destruct (I4 t (TDone r)) as [_ ?]; [eapply nth_error_In; eauto|assumption].
Qed.
Theorem concurrent_alone d ts sched d' p i r :
  (forall t, In t ts -> ready t) ->
  (forall t t', In t ts -> In t' ts -> task_key t = task_key t' -> alone d t = alone d t') ->
  prun d (start ts) sched = (d', p) -> result p i r ->
  exists t, nth_error ts i = Some t /\ r = alone d t.
Proof.
  intros Hnm Hag H Hr. destruct (concurrent_some _ _ _ _ _ _ _ Hnm H Hr) as (t & A & t' & B & C & D).
  exists t. split; [assumption|]. rewrite D. apply Hag; auto. eapply nth_error_In; eauto.
Qed.
(** A text that is in the cache stays: every call with its key returns it. *)
Theorem concurrent_cached d ts sched d' p i r n s :
  (forall t, In t ts -> ready t) -> get_cached d n = Some s ->
  prun d (start ts) sched = (d', p) -> result p i r ->
  forall t, nth_error ts i = Some t -> task_key t = n -> r = Some s.
Proof.
  intros Hnm Hc H Hr t Ht K. destruct (concurrent_some _ _ _ _ _ _ _ Hnm H Hr) as (t1 & A & t' & B & C & ->).
  rewrite A in Ht. injection Ht as ->. specialize (Hnm _ B). destruct t' as [q|m c]; cbn [alone task_key ready] in *.
  - unfold stmt_string. rewrite Hnm, C, K, Hc. reflexivity.
  - unfold get_or_create. rewrite C, K, Hc. reflexivity.
Qed.

(** ** Progress, and one goroutine alone *)
Definition fuel_of (x : tstate) : nat := match x with TBegin => 3 | TCalled => 2 | TStore _ => 1 | TDone _ => 0 end.
Lemma tstep_fuel d t x d' x' : tstep d t x = (d', x') -> (fuel_of x' <= fuel_of x - 1)%nat.
Proof.
  destruct x as [| |s|r]; cbn [tstep]; intros H.
  - destruct t as [q|n c].
    + injection H as <- <-. unfold load_step. destruct (is_empty (st_sql q)); [|cbn; lia].
      destruct (get_cached d (cache_key q)); [cbn; lia|]. destruct (render (is_pg d) q); cbn; lia.
    + injection H as <- <-. destruct (get_cached d n); cbn; lia.
  - injection H as <- <-. unfold load_step. destruct (is_empty (st_sql (own_stmt t))); [|cbn; lia].
    destruct (get_cached d (cache_key (own_stmt t))); [cbn; lia|]. destruct (render (is_pg d) (own_stmt t)); cbn; lia.
  - injection H as <- <-. cbn; lia.
  - injection H as <- <-. cbn; lia.
Qed.
Lemma pstep_fuel : forall p d i d' p' j t x, pstep d p i = (d', p') -> nth_error p j = Some (t, x) ->
  exists x', nth_error p' j = Some (t, x') /\ (fuel_of x' <= fuel_of x - (if Nat.eq_dec i j then 1 else 0))%nat.
Proof.
  induction p as [|[t0 x0] p IH]; intros d i d' p' j t x H Hj; [destruct j; discriminate|].
  destruct i as [|i]; cbn [pstep] in H.
  - destruct (tstep d t0 x0) as [d1 x1] eqn:E. injection H as <- <-. destruct j as [|j].
    + injection Hj as <- <-. exists x1. split; [reflexivity|]. cbn. eapply tstep_fuel; eauto.
    + exists x. split; [exact Hj|]. cbn. lia.
  - destruct (pstep d p i) as [d1 p1] eqn:E. injection H as <- <-. destruct j as [|j].
    + injection Hj as <- <-. exists x0. split; [reflexivity|]. cbn. lia.
    + destruct (IH _ _ _ _ _ _ _ E Hj) as (x' & A & Hf). exists x'. split; [exact A|].
      destruct (Nat.eq_dec i j), (Nat.eq_dec (S i) (S j)); lia.
Qed.
Lemma prun_fuel : forall sched p d d' p' j t x, prun d p sched = (d', p') -> nth_error p j = Some (t, x) ->
  exists x', nth_error p' j = Some (t, x') /\ (fuel_of x' <= fuel_of x - count_occ Nat.eq_dec sched j)%nat.
Proof.
  induction sched as [|i r IH]; intros p d d' p' j t x H Hj; cbn [prun] in H.
  - injection H as <- <-. exists x. split; [exact Hj|]. cbn. lia.
  - destruct (pstep d p i) as [d1 p1] eqn:E. destruct (pstep_fuel _ _ _ _ _ _ _ _ E Hj) as (x1 & A & Hf).
    destruct (IH _ _ _ _ _ _ _ H A) as (x2 & A2 & Hf2). exists x2. split; [exact A2|].
    cbn [count_occ]. destruct (Nat.eq_dec i j); lia.
Qed.
Theorem concurrent_finish d ts sched d' p i : (i < length ts)%nat -> (3 <= count_occ Nat.eq_dec sched i)%nat ->
  prun d (start ts) sched = (d', p) -> exists r, result p i r.
Proof.
  intros Hi Hc H. destruct (nth_error ts i) as [t|] eqn:E; [|apply nth_error_None in E; lia].
  assert (Hn : nth_error (start ts) i = Some (t, TBegin)) by (unfold start; rewrite nth_error_map, E; reflexivity).
  destruct (prun_fuel _ _ _ _ _ _ _ _ H Hn) as (x & A & Hf). cbn [fuel_of] in Hf.
  destruct x as [| |s|r]; cbn [fuel_of] in Hf; try lia. exists r, t. exact A.
Qed.
Theorem string_alone d q : exists d', prun d (start [TString q]) [O; O; O] = (d', [(TString q, TDone (alone d (TString q)))]) /\
  d' = match stmt_string d q with Some (d1, _, _) => d1 | None => d end.
Proof.
  unfold start. cbn [map prun pstep tstep alone]. unfold load_step, stmt_string.
  destruct (is_empty (st_sql q)); [|eexists; split; reflexivity].
  destruct (get_cached d (cache_key q)); [eexists; split; reflexivity|].
  destruct (render (is_pg d) q); eexists; split; reflexivity.
Qed.
Theorem get_alone d n c : exists d', prun d (start [TGet n c]) [O; O; O] = (d', [(TGet n c, TDone (alone d (TGet n c)))]) /\
  d' = match get_or_create d n c with Some (d1, _, _) => d1 | None => d end.
Proof.
  unfold start. cbn [map prun pstep tstep alone]. unfold get_or_create.
  destruct (get_cached d n); [eexists; split; reflexivity|].
  cbn [prun pstep tstep own_stmt]. unfold load_step, stmt_string. cbn [own_stmt].
  destruct (is_empty (st_sql (set_name c n))); [|eexists; split; reflexivity].
  destruct (get_cached d (cache_key (set_name c n))); [eexists; split; reflexivity|].
  destruct (render (is_pg d) (set_name c n)); eexists; split; reflexivity.
Qed.

(** ** Lazily cached strings *)
(** The words that can be seen: the length is never seen as zero once it may be
    returned. *)
Definition word_ok (text : bytes) (p : option bytes) : Prop := p = None \/ p = Some text.
Definition len_set (text : bytes) (m : smem) : Prop := m_len m = length text.
Definition rst_ok (text : bytes) (m : smem) (x : rstate) : Prop :=
  match x with
  | RCheck | RStore _ | RStore2 true => True
  | RStore2 false | RRead => len_set text m
  | RRead2 p n => len_set text m /\ (match p with Some p => word_ok text p | None => True end) /\ (match n with Some n => n = length text | None => True end)
  | RGot p n => word_ok text p /\ n = length text
  end.
Definition mem_ok (text : bytes) (m : smem) : Prop := word_ok text (m_ptr m) /\ (m_len m = 0%nat \/ m_len m = length text).
Lemma rstep_ok text m x b m' x' : mem_ok text m -> rst_ok text m x -> rstep text m x b = (m', x') ->
  mem_ok text m' /\ rst_ok text m' x' /\ (len_set text m -> len_set text m').
Proof.
  intros [M1 M2] Hx H. unfold mem_ok, word_ok, len_set in *.
  destruct x as [|[]|[]| |[p|] [n|]|p n]; cbn [rstep rst_ok] in *; try (injection H as <- <-; cbn; unfold word_ok, len_set in *; cbn; intuition auto; fail).
  - injection H as <- <-. destruct (m_len m =? 0)%nat eqn:E; cbn; auto. apply Nat.eqb_neq in E. unfold len_set. intuition congruence.
  - injection H as <- <-. destruct b; cbn; unfold word_ok, len_set; auto.
Qed.
Lemma rst_mono text m m' x : (len_set text m -> len_set text m') -> rst_ok text m x -> rst_ok text m' x.
Proof. destruct x as [|[]|[]| |p n|p n]; cbn; intuition auto. Qed.
Lemma rpstep_ok text : forall p m i b m' p', mem_ok text m -> Forall (rst_ok text m) p -> rpstep text m p i b = (m', p') ->
  mem_ok text m' /\ Forall (rst_ok text m') p' /\ (len_set text m -> len_set text m').
Proof.
  induction p as [|x p IH]; intros m i b m' p' Hm Hp H; [destruct i; injection H as <- <-; auto|].
  inversion_clear Hp as [|? ? Hx Hp']. destruct i as [|i]; cbn [rpstep] in H.
  - destruct (rstep text m x b) as [m1 x1] eqn:E. injection H as <- <-. destruct (rstep_ok _ _ _ _ _ _ Hm Hx E) as (A & C & D).
    split; [assumption|split; [|assumption]]. constructor; [assumption|]. eapply Forall_impl; [|exact Hp']. intros y. apply rst_mono. assumption.
  - destruct (rpstep text m p i b) as [m1 p1] eqn:E. injection H as <- <-. destruct (IH _ _ _ _ _ Hm Hp' E) as (A & C & D).
    split; [assumption|split; [|assumption]]. constructor; [|assumption]. eapply rst_mono; eauto.
Qed.
Lemma rprun_ok text : forall sched p m m' p', mem_ok text m -> Forall (rst_ok text m) p -> rprun text m p sched = (m', p') ->
  mem_ok text m' /\ Forall (rst_ok text m') p'.
Proof.
  induction sched as [|[i b] r IH]; intros p m m' p' Hm Hp H; cbn [rprun] in H; [injection H as <- <-; auto|].
  destruct (rpstep text m p i b) as [m1 p1] eqn:E. destruct (rpstep_ok _ _ _ _ _ _ _ Hm Hp E) as (A & C & _). eauto.
Qed.
Lemma s_value_pub text : s_value (Some text) (length text) = Some text.
Proof. destruct text; cbn [s_value length]; [reflexivity|]. rewrite <- (firstn_all (a :: text)) at 2. reflexivity. Qed.
Theorem lazy_values text k sched m p i q n : rprun text s_init (repeat RCheck k) sched = (m, p) -> nth_error p i = Some (RGot q n) ->
  s_value q n = Some text \/ s_value q n = None.
Proof.
  intros H Hi. assert (F : Forall (rst_ok text s_init) (repeat RCheck k)).
  { clear. induction k; constructor; [exact I|assumption]. }
  destruct (rprun_ok text sched (repeat RCheck k) s_init m p) as [_ F']; [split; left; reflexivity|exact F|exact H|].
  rewrite Forall_forall in F'. pose proof (F' _ (nth_error_In _ _ Hi)) as [[->| ->] ->].
  - destruct text; [left; reflexivity|right; reflexivity].
  - left. apply s_value_pub.
Qed.

(** Once published nothing changes. *)
Definition pub (text : bytes) : smem := mkM (Some text) (length text).
Definition rst_pub (text : bytes) (x : rstate) : Prop :=
  match x with
  | RRead2 p n => (match p with Some p => p = Some text | None => True end) /\ (match n with Some n => n = length text | None => True end)
  | RGot p n => p = Some text /\ n = length text
  | _ => True
  end.
Lemma rstep_pub text x b m' x' : rst_pub text x -> rstep text (pub text) x b = (m', x') -> m' = pub text /\ rst_pub text x'.
Proof.
  intros Hx H. destruct x as [|[]|[]| |[p|] [n|]|p n]; cbn [rstep rst_pub pub m_ptr m_len] in *; try (injection H as <- <-; cbn; intuition auto; fail).
  - injection H as <- <-. destruct (length text =? 0)%nat; cbn; auto.
  - injection H as <- <-. destruct b; cbn; auto.
Qed.
Lemma rpstep_pub text : forall p i b m' p', Forall (rst_pub text) p -> rpstep text (pub text) p i b = (m', p') -> m' = pub text /\ Forall (rst_pub text) p'.
Proof.
  induction p as [|x p IH]; intros i b m' p' Hp H; [destruct i; injection H as <- <-; auto|].
  inversion_clear Hp as [|? ? Hx Hp']. destruct i as [|i]; cbn [rpstep] in H.
  - destruct (rstep text (pub text) x b) as [m1 x1] eqn:E. injection H as <- <-. destruct (rstep_pub _ _ _ _ _ Hx E). auto.
  - destruct (rpstep text (pub text) p i b) as [m1 p1] eqn:E. injection H as <- <-. destruct (IH _ _ _ _ Hp' E). auto.
Qed.
Lemma rprun_pub text : forall sched p m' p', Forall (rst_pub text) p -> rprun text (pub text) p sched = (m', p') -> m' = pub text /\ Forall (rst_pub text) p'.
Proof.
  induction sched as [|[i b] r IH]; intros p m' p' Hp H; cbn [rprun] in H; [injection H as <- <-; auto|].
  destruct (rpstep text (pub text) p i b) as [m1 p1] eqn:E. destruct (rpstep_pub _ _ _ _ _ _ Hp E) as [-> Hp1]. eauto.
Qed.
Theorem lazy_published text k sched m p i q n : rprun text (pub text) (repeat RCheck k) sched = (m, p) -> nth_error p i = Some (RGot q n) ->
  s_value q n = Some text.
Proof.
  intros H Hi. assert (F : Forall (rst_pub text) (repeat RCheck k)).
  { clear. induction k; constructor; [exact I|assumption]. }
  destruct (rprun_pub _ _ _ _ _ F H) as [_ F']. rewrite Forall_forall in F'.
  destruct (F' _ (nth_error_In _ _ Hi)) as [-> ->]. apply s_value_pub.
Qed.
(** One call alone publishes and returns the text. *)
Theorem lazy_alone text b1 b2 b3 b4 b5 : text <> [] ->
  rprun text s_init [RCheck] [(O, b1); (O, b2); (O, b3); (O, b4); (O, b5)] = (pub text, [RGot (Some text) (length text)]).
Proof. intros _. destruct b1, b2, b3, b4, b5; reflexivity. Qed.
Theorem lazy_torn text : text <> [] -> exists sched m p,
  rprun text s_init [RCheck; RCheck] sched = (m, p) /\ exists q n, nth_error p 1 = Some (RGot q n) /\ s_value q n = None.
Proof.
  intros H. destruct text as [|c t]; [congruence|].
  exists [(0%nat, false); (0%nat, false); (1%nat, true); (1%nat, true); (1%nat, true)]. eexists _, _. split; [reflexivity|].
  exists None, (S (length t)). split; reflexivity.
Qed.
