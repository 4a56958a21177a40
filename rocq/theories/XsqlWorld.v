(** Statement objects, variables, the statement pool and the dialect caches of
    package xsql (pool.go, cache.go, stmt.go:813-890, 992-1012).

    Concrete machine: a heap of *Stmt objects, a pool of object ids, variables
    holding object ids (they keep pointing to an object after Close).  Which
    object sync.Pool.Get returns is chosen by an oracle given with every step.
    Abstract machine: every variable holds a private statement value.

    Steps are atomic; goroutines using different variables are covered by
    considering every order of steps.  (The Load and Store of one String() call
    on the dialect's sync.Map are taken as one step.) *)
From Verif Require Import GoBase GoBaseFacts XsqlModel XsqlSpec XsqlUserSpec XsqlProofs XsqlRender XsqlUser XsqlOrder XsqlMore XsqlCache XsqlSub.
From Coq Require Import ZifyBool ZifyNat Permutation.
Open Scope Z_scope.

(** Constructors that take no statement, dialect.go:132-182. *)
Definition plain_ctor (k : ctor) : bool := match k with KWith _ _ _ => false | _ => true end.
(** Calls that take no statement. *)
Definition plain_call (c : bcall) : bool :=
  match c with CWith _ _ _ | CSubQuery _ _ _ _ | CUnion _ _ _ => false | _ => true end.

Inductive wop :=
| WNew (v did : nat) (k : ctor)              (* v := dialect.Ctor(...) *)
| WCall (v : nat) (c : bcall)                (* v.Call(...) *)
| WSub (v : nat) (p x : bytes) (w : nat)     (* v.SubQuery(p, x, w) *)
| WWith (v : nat) (n : bytes) (w : nat)      (* v.With(n, w) *)
| WUnion (v : nat) (all : bool) (w : nat)    (* v.Union(all, w) *)
| WNewWith (v did : nat) (n : bytes) (w : nat) (* v := dialect.With(n, w) *)
| WClone (v w : nat)                         (* w := v.Clone() *)
| WString (v : nat) | WArgs (v : nat) | WDest (v : nat)
| WClose (v : nat)                           (* v.Close() *)
| WNewLines (did : nat) (b : bool)           (* dialect.UseNewLines(b) *)
| WPut (did : nat) (k s : bytes).            (* dialect.PutCachedQuery(k, s) *)

Inductive obs := OStr (s : bytes) | OArgs (a : list goany) | ODest (d : list Z).

Definition upd {A} (f : nat -> A) (k : nat) (v : A) : nat -> A := fun x => if Nat.eqb x k then v else f x.

(** ** Concrete machine *)
(** A *Stmt; [o_open] is q.buf != nil. *)
Record obj := mkObj { o_stmt : stmt; o_open : bool }.
Record world := mkW {
  w_heap : nat -> obj; w_next : nat; w_pool : list nat; w_vars : nat -> option nat; w_dial : nat -> dialect }.

Definition set_heap (w : world) i o := mkW (upd (w_heap w) i o) (w_next w) (w_pool w) (w_vars w) (w_dial w).
Definition set_var (w : world) v i := mkW (w_heap w) (w_next w) (w_pool w) (upd (w_vars w) v (Some i)) (w_dial w).
Definition set_dial (w : world) did d := mkW (w_heap w) (w_next w) (w_pool w) (w_vars w) (upd (w_dial w) did d).

(** A usable object: panics (nil buffer) otherwise. *)
Definition open_stmt (w : world) (i : nat) : option stmt := if o_open (w_heap w i) then Some (o_stmt (w_heap w i)) else None.

Fixpoint remove_nth {A} (n : nat) (l : list A) : list A :=
  match l, n with [], _ => [] | _ :: r, O => r | x :: r, S m => x :: remove_nth m r end.

(** pool.go:19-27 getStmt; [pick]: index of the pooled object handed out, or
    None for a new one. *)
Definition get_obj (w : world) (did : nat) (pick : option nat) : world * nat :=
  match pick with
  | Some n =>
      match nth_error (w_pool w) n with
      | Some i => (mkW (upd (w_heap w) i (mkObj (get_stmt (o_stmt (w_heap w i)) did (w_dial w did)) true))
                       (w_next w) (remove_nth n (w_pool w)) (w_vars w) (w_dial w), i)
      | None => (mkW (upd (w_heap w) (w_next w) (mkObj (get_stmt new_stmt did (w_dial w did)) true))
                     (S (w_next w)) (w_pool w) (w_vars w) (w_dial w), w_next w)
      end
  | None => (mkW (upd (w_heap w) (w_next w) (mkObj (get_stmt new_stmt did (w_dial w did)) true))
                 (S (w_next w)) (w_pool w) (w_vars w) (w_dial w), w_next w)
  end.

(** pool.go:29-50 reuseStmt: putBuffer panics on a nil buffer. *)
Definition close_obj (w : world) (i : nat) : option world :=
  do q <- open_stmt w i;
  Some (mkW (upd (w_heap w) i (mkObj (reuse_stmt q) false)) (w_next w) (w_pool w ++ [i]) (w_vars w) (w_dial w)).

(** stmt.go:910-944 String on an object. *)
Definition string_obj (w : world) (i : nat) : option (world * bytes) :=
  do q <- open_stmt w i;
  do (x, s) <- stmt_string (w_dial w (st_dialect q)) q;
  Some (set_heap (set_dial w (st_dialect q) (fst x)) i (mkObj (snd x) true), s).

(** stmt.go:842-850 / 879-887: neutral text of the inner statement, appended to
    chunk [index] of the outer one; then the inner one is closed. *)
Definition embed (w : world) (o index i : nat) (suffix : bytes) : option world :=
  do qi <- open_stmt w i;
  let qi1 := if (st_dialect qi =? 0)%nat then qi else invalidate (set_dialect qi 0) in
  do (w1, s) <- string_obj (set_heap w i (mkObj qi1 true)) i;
  do qo <- open_stmt w1 o;
  do qo1 <- write_tail qo index (s ++ suffix);
  close_obj (set_heap w1 o (mkObj qo1 true)) i.

(** stmt.go:834-854 SubQuery on objects *)
Definition sub_obj (w : world) (o : nat) (p x : bytes) (i : nat) : option world :=
  do qo <- open_stmt w o;
  do (qo1, index) <- add_chunk qo (st_pos qo) [] p (st_args (o_stmt (w_heap w i))) (if st_pos qo =? posWhere then B " AND " else B ", ");
  embed (set_heap w o (mkObj qo1 true)) o index i x.
(** stmt.go:813-816 With on objects *)
Definition with_obj (w : world) (o : nat) (n : bytes) (i : nat) : option world :=
  do qo <- open_stmt w o;
  do qo1 <- addc qo posWith (B "WITH") [] [] [];
  sub_obj (set_heap w o (mkObj qo1 true)) o (n ++ B " AS (") (B ")") i.
(** stmt.go:863-890 Union on objects *)
Definition union_obj (w : world) (o : nat) (all : bool) (i : nat) : option world :=
  do qo <- open_stmt w o;
  do (qo1, index) <- add_chunk qo (union_pos qo) (if all then B "UNION ALL " else B "UNION ") [] (st_args (o_stmt (w_heap w i))) [];
  embed (set_heap w o (mkObj qo1 true)) o index i [].

(** stmt.go:998-1012 Clone on objects *)
Definition clone_obj (w : world) (i : nat) (pick : option nat) : option (world * nat) :=
  do q <- open_stmt w i;
  let '(w1, j) := get_obj w (st_dialect q) pick in
  do s <- open_stmt w1 j;
  do a <- insert_at (st_args s) (st_args q) 0;
  do ds <- insert_at (st_dest s) (st_dest q) 0;
  Some (set_heap w1 j (mkObj (mkStmt (st_name s) (st_dialect s) (st_pos s) (st_chunks s ++ st_chunks q)
                                     (st_buf s ++ st_buf q) (st_sql q) a ds (st_nl s)) true), j).

Definition wstep (w : world) (op : wop) (pick : option nat) : option (world * list obs) :=
  match op with
  | WNew v did k =>
      if plain_ctor k then
        let '(w1, i) := get_obj w did pick in
        do q <- open_stmt w1 i;
        do q1 <- construct q k;
        Some (set_var (set_heap w1 i (mkObj q1 true)) v i, [])
      else None
  | WCall v c =>
      if plain_call c then
        do i <- w_vars w v; do q <- open_stmt w i; do q1 <- call q c; Some (set_heap w i (mkObj q1 true), [])
      else None
  | WSub v p x u => do o <- w_vars w v; do i <- w_vars w u; do w1 <- sub_obj w o p x i; Some (w1, [])
  | WWith v n u => do o <- w_vars w v; do i <- w_vars w u; do w1 <- with_obj w o n i; Some (w1, [])
  | WUnion v all u => do o <- w_vars w v; do i <- w_vars w u; do w1 <- union_obj w o all i; Some (w1, [])
  | WNewWith v did n u =>
      do i <- w_vars w u;
      let '(w1, o) := get_obj w did pick in
      do w2 <- with_obj w1 o n i; Some (set_var w2 v o, [])
  | WClone v u => do i <- w_vars w v; do (w1, j) <- clone_obj w i pick; Some (set_var w1 u j, [])
  | WString v => do i <- w_vars w v; do (w1, s) <- string_obj w i; Some (w1, [OStr s])
  | WArgs v => do i <- w_vars w v; Some (w, [OArgs (st_args (o_stmt (w_heap w i)))])
  | WDest v => do i <- w_vars w v; Some (w, [ODest (st_dest (o_stmt (w_heap w i)))])
  | WClose v => do i <- w_vars w v; do w1 <- close_obj w i; Some (w1, [])
  | WNewLines did b => Some (set_dial w did (mkDialect (d_provider (w_dial w did)) (d_cache (w_dial w did)) b), [])
  | WPut did k s => Some (set_dial w did (put_cached (w_dial w did) k s), [])
  end.
Fixpoint wrun (w : world) (l : list (wop * option nat)) : option (world * list obs) :=
  match l with
  | [] => Some (w, [])
  | (op, pick) :: r => do (w1, o1) <- wstep w op pick; do (w2, o2) <- wrun w1 r; Some (w2, o1 ++ o2)
  end.

(** Process start: no objects. *)
Definition world0 (d : nat -> dialect) : world := mkW (fun _ => mkObj new_stmt false) 0 [] (fun _ => None) d.

(** ** Abstract machine: private values, no pool *)
(** The flag says whether the current clause is known: after Clone it is not,
    until a call names a clause. *)
Record aworld := mkA { a_vars : nat -> option (stmt * bool); a_dial : nat -> dialect }.
Definition aset (a : aworld) v x := mkA (upd (a_vars a) v x) (a_dial a).
Definition aset_dial (a : aworld) did d := mkA (a_vars a) (upd (a_dial a) did d).

(** Neutral text and arguments of the statement in variable [u], which is then
    closed. *)
Definition aneutral (a : aworld) (u : nat) : option (aworld * bytes * list goany) :=
  do (q, _) <- a_vars a u;
  let q1 := if (st_dialect q =? 0)%nat then q else invalidate (set_dialect q 0) in
  do (x, s) <- stmt_string (a_dial a 0%nat) q1;
  Some (aset (aset_dial a 0 (fst x)) u None, s, st_args q).

Definition astep (a : aworld) (op : wop) : option (aworld * list obs) :=
  match op with
  | WNew v did k =>
      if plain_ctor k then do q <- construct (get_stmt new_stmt did (a_dial a did)) k; Some (aset a v (Some (q, true)), []) else None
  | WCall v c =>
      if plain_call c then
        do (q, known) <- a_vars a v;
        if known || names_clause c then do q1 <- call q c; Some (aset a v (Some (q1, known || has_clause c)), []) else None
      else None
  | WSub v p x u =>
      if (v =? u)%nat then None else
      do (q, known) <- a_vars a v;
      if known then do (y, ia) <- aneutral a u; do q1 <- call q (CSubQuery p x (snd y) ia); Some (aset (fst y) v (Some (q1, true)), []) else None
  | WWith v n u =>
      if (v =? u)%nat then None else
      do (q, _) <- a_vars a v; do (y, ia) <- aneutral a u; do q1 <- call q (CWith n (snd y) ia); Some (aset (fst y) v (Some (q1, true)), [])
  | WUnion v all u =>
      if (v =? u)%nat then None else
      do (q, _) <- a_vars a v; do (y, ia) <- aneutral a u; do q1 <- call q (CUnion all (snd y) ia); Some (aset (fst y) v (Some (q1, true)), [])
  | WNewWith v did n u =>
      do (y, ia) <- aneutral a u; do q1 <- call (get_stmt new_stmt did (a_dial a did)) (CWith n (snd y) ia); Some (aset (fst y) v (Some (q1, true)), [])
  | WClone v u => do (q, _) <- a_vars a v; do q1 <- clone new_stmt (a_dial a (st_dialect q)) q; Some (aset a u (Some (q1, false)), [])
  | WString v =>
      do (q, known) <- a_vars a v; do (x, s) <- stmt_string (a_dial a (st_dialect q)) q;
      Some (aset (aset_dial a (st_dialect q) (fst x)) v (Some (snd x, known)), [OStr s])
  | WArgs v => do (q, _) <- a_vars a v; Some (a, [OArgs (st_args q)])
  | WDest v => do (q, _) <- a_vars a v; Some (a, [ODest (st_dest q)])
  | WClose v => do (q, _) <- a_vars a v; Some (aset a v None, [])
  | WNewLines did b => Some (aset_dial a did (mkDialect (d_provider (a_dial a did)) (d_cache (a_dial a did)) b), [])
  | WPut did k s => Some (aset_dial a did (put_cached (a_dial a did) k s), [])
  end.
Fixpoint arun (a : aworld) (l : list wop) : option (aworld * list obs) :=
  match l with
  | [] => Some (a, [])
  | op :: r => do (a1, o1) <- astep a op; do (a2, o2) <- arun a1 r; Some (a2, o1 ++ o2)
  end.
Definition aworld0 (d : nat -> dialect) : aworld := mkA (fun _ => None) d.

(** ** Refinement *)
Lemma NoDup_app_snoc {A} (l : list A) x : NoDup l -> ~ In x l -> NoDup (l ++ [x]).
Proof. intros H1 H2. apply (Permutation.Permutation_NoDup (l := x :: l)); [apply Permutation.Permutation_cons_append|constructor; assumption]. Qed.
Definition same_up (known : bool) (q q' : stmt) : Prop := exists p, q' = set_pos q p /\ (known = true -> q' = q).
(** [ex]: objects in use by the current step, owned by no variable. *)
Record RefX (a : aworld) (w : world) (ex : list nat) : Prop := {
  r_dial : forall did, w_dial w did = a_dial a did;
  r_live : forall v q known, a_vars a v = Some (q, known) ->
    exists i, w_vars w v = Some i /\ (i < w_next w)%nat /\ ~ In i (w_pool w) /\ ~ In i ex /\
              o_open (w_heap w i) = true /\ same_up known q (o_stmt (w_heap w i));
  r_inj : forall v v' x x' i, a_vars a v = Some x -> a_vars a v' = Some x' -> w_vars w v = Some i -> w_vars w v' = Some i -> v = v';
  r_pool : forall i, In i (w_pool w) -> (i < w_next w)%nat /\ clean (o_stmt (w_heap w i)) /\ ~ In i ex;
  r_nodup : NoDup (w_pool w);
  r_ex : forall i, In i ex -> (i < w_next w)%nat;
  r_exnd : NoDup ex }.
Definition Ref a w := RefX a w [].

Lemma upd_same {A} (f : nat -> A) k v : upd f k v k = v.
Proof. unfold upd. rewrite Nat.eqb_refl. reflexivity. Qed.
Lemma upd_other {A} (f : nat -> A) k v x : x <> k -> upd f k v x = f x.
Proof. unfold upd. intros H. replace (x =? k)%nat with false by lia. reflexivity. Qed.
Lemma upd_cases {A} (f : nat -> A) k v x : (x = k /\ upd f k v x = v) \/ (x <> k /\ upd f k v x = f x).
Proof. destruct (Nat.eq_dec x k); [left; subst; split; [reflexivity|apply upd_same]|right; split; [assumption|apply upd_other; assumption]]. Qed.

Lemma Ref_ext a a' w ex : (forall v, a_vars a' v = a_vars a v) -> (forall did, a_dial a' did = a_dial a did) -> RefX a w ex -> RefX a' w ex.
Proof.
  intros E1 E2 [D L I P N X Y]. constructor; auto.
  - intros did. rewrite E2. apply D.
  - intros v q known H. rewrite E1 in H. eapply L; exact H.
  - intros v v' x x' i H H'. rewrite E1 in H, H'. eapply I; eassumption.
Qed.

Lemma X_borrow a w ex v q known i : RefX a w ex -> a_vars a v = Some (q, known) -> w_vars w v = Some i ->
  RefX (aset a v None) w (i :: ex) /\ ~ In i ex /\ o_open (w_heap w i) = true /\ same_up known q (o_stmt (w_heap w i)) /\ ~ In i (w_pool w).
Proof.
  intros [D L I P N X Y] Hv Hw. destruct (L _ _ _ Hv) as (j & J1 & J2 & J3 & J4 & J5 & J6). assert (j = i) by congruence. subst j.
  split; [|auto]. constructor; auto.
  - intros v' q' known' H. unfold aset in H; cbn in H. destruct (upd_cases (a_vars a) v None v') as [[-> E]|[Hn E]]; rewrite E in H; [discriminate|].
    destruct (L _ _ _ H) as (j & K1 & K2 & K3 & K4 & K5 & K6). exists j. repeat split; auto. intros [->|Hin]; [|auto]. apply Hn. eapply I; eassumption.
  - intros v1 v2 x1 x2 j H1 H2. unfold aset in H1, H2; cbn in H1, H2.
    destruct (upd_cases (a_vars a) v None v1) as [[-> E]|[Hn E]]; rewrite E in H1; [discriminate|].
    destruct (upd_cases (a_vars a) v None v2) as [[-> E2]|[Hn2 E2]]; rewrite E2 in H2; [discriminate|]. eapply I; eassumption.
  - intros j Hj. destruct (P j Hj) as (P1 & P2 & P3). split; [exact P1|]. split; [exact P2|]. intros [->|Hin]; auto.
  - intros j [->|Hj]; auto.
  - constructor; auto.
Qed.

Lemma X_give a w ex v q known i : RefX a w (i :: ex) -> w_vars w v = Some i -> o_open (w_heap w i) = true -> same_up known q (o_stmt (w_heap w i)) ->
  ~ In i (w_pool w) -> RefX (aset a v (Some (q, known))) w ex.
Proof.
  intros [D L I P N X Y] Hw Ho Hs Hp. inversion Y as [|? ? Y1 Y2]; subst. constructor; auto.
  - intros v' q' known' H. unfold aset in H; cbn in H. destruct (upd_cases (a_vars a) v (Some (q, known)) v') as [[-> E]|[Hn E]]; rewrite E in H.
    + injection H as <- <-. exists i. repeat split; auto. apply X. left; reflexivity.
    + destruct (L _ _ _ H) as (j & K1 & K2 & K3 & K4 & K5 & K6). exists j. repeat split; auto. intros Hin. apply K4. right; exact Hin.
  - intros v1 v2 x1 x2 j H1 H2. unfold aset in H1, H2; cbn in H1, H2.
    assert (A : forall v3 x3, a_vars a v3 = Some x3 -> w_vars w v3 <> Some i).
    { intros v3 [q3 k3] H E. destruct (L _ _ _ H) as (j' & K1 & _ & _ & K4 & _). apply K4. left. congruence. }
    destruct (upd_cases (a_vars a) v (Some (q, known)) v1) as [[-> E]|[Hn E]]; rewrite E in H1;
      destruct (upd_cases (a_vars a) v (Some (q, known)) v2) as [[-> E2]|[Hn2 E2]]; rewrite E2 in H2; auto.
    + intros H3 H4. exfalso. eapply A; [exact H2|]. congruence.
    + intros H3 H4. exfalso. eapply A; [exact H1|]. congruence.
    + eapply I; eassumption.
  - intros j Hj. destruct (P j Hj) as (P1 & P2 & P3). split; [exact P1|]. split; [exact P2|]. intros Hin. apply P3. right; exact Hin.
  - intros j Hj. apply X. right; exact Hj.
Qed.

Lemma X_give_var a w ex v q known i : RefX a w (i :: ex) -> o_open (w_heap w i) = true -> same_up known q (o_stmt (w_heap w i)) ->
  ~ In i (w_pool w) -> RefX (aset a v (Some (q, known))) (set_var w v i) ex.
Proof.
  intros R Ho Hs Hp. assert (R2 : RefX (aset a v None) (set_var w v i) (i :: ex)).
  { destruct R as [D L I P N X Y]. constructor; auto.
    - intros v' q' known' H. unfold aset in H; cbn in H. destruct (upd_cases (a_vars a) v None v') as [[-> E]|[Hn E]]; rewrite E in H; [discriminate|].
      destruct (L _ _ _ H) as (j & K1 & K). exists j. split; [|exact K]. cbn. rewrite upd_other; assumption.
    - intros v1 v2 x1 x2 j H1 H2. unfold aset in H1, H2; cbn in *.
      destruct (upd_cases (a_vars a) v None v1) as [[-> E]|[Hn E]]; rewrite E in H1; [discriminate|].
      destruct (upd_cases (a_vars a) v None v2) as [[-> E2]|[Hn2 E2]]; rewrite E2 in H2; [discriminate|].
      rewrite !upd_other by assumption. eapply I; eassumption. }
  apply (Ref_ext (aset (aset a v None) v (Some (q, known)))).
  - intros v'. unfold aset; cbn. destruct (upd_cases (a_vars a) v (Some (q, known)) v') as [[-> E]|[Hn E]]; rewrite E; [rewrite upd_same; reflexivity|].
    rewrite !upd_other by assumption. reflexivity.
  - reflexivity.
  - eapply X_give; try eassumption. cbn. apply upd_same.
Qed.

Lemma X_heap a w ex i o : RefX a w ex -> In i ex -> RefX a (set_heap w i o) ex.
Proof.
  intros [D L I P N X Y] Hi. constructor; auto.
  - intros v q known H. destruct (L _ _ _ H) as (j & K1 & K2 & K3 & K4 & K5 & K6). exists j. cbn. rewrite upd_other by congruence. repeat split; auto.
  - intros j Hj. destruct (P j Hj) as (P1 & P2 & P3). cbn. rewrite upd_other by congruence. auto.
Qed.
Lemma X_dial a w ex did d : RefX a w ex -> RefX (aset_dial a did d) (set_dial w did d) ex.
Proof.
  intros [D L I P N X Y]. constructor; auto. intros did'. cbn.
  destruct (upd_cases (w_dial w) did d did') as [[-> E]|[Hn E]]; rewrite E; [rewrite upd_same; reflexivity|]. rewrite upd_other by assumption. apply D.
Qed.
Lemma X_close a w ex i q : RefX a w (i :: ex) -> ~ In i (w_pool w) -> open_stmt w i = Some q -> exists w', close_obj w i = Some w' /\ RefX a w' ex /\
  w_vars w' = w_vars w /\ w_pool w' = w_pool w ++ [i] /\ (forall j, j <> i -> w_heap w' j = w_heap w j).
Proof.
  intros [D L I P N X Y] Hp Hq. unfold close_obj. rewrite Hq. cbn [bind]. eexists. split; [reflexivity|]. cbn.
  split; [|split; [reflexivity|split; [reflexivity|intros j Hj; apply upd_other; exact Hj]]].
  inversion Y as [|? ? Y1 Y2]; subst. constructor; cbn; auto.
  - intros v q' known H. destruct (L _ _ _ H) as (j & K1 & K2 & K3 & K4 & K5 & K6). exists j.
    assert (j <> i) by (intros ->; apply K4; left; reflexivity). rewrite upd_other by assumption. repeat split; auto.
    + intros Hin. apply in_app_or in Hin as [Hin|[Hin|[]]]; auto.
    + intros Hin. apply K4. right; exact Hin.
  - intros j Hj. apply in_app_or in Hj as [Hj|[<-|[]]].
    + destruct (P j Hj) as (P1 & P2 & P3). assert (j <> i) by (intros ->; apply P3; left; reflexivity). rewrite upd_other by assumption.
      repeat split; auto; try apply P2. intros Hin. apply P3. right; exact Hin.
    + rewrite upd_same. cbn. split; [apply X; left; reflexivity|]. split; [apply reuse_clean|assumption].
  - apply NoDup_app_snoc; assumption.
  - intros j Hj. apply X. right; exact Hj.
Qed.

Lemma in_remove_nth {A} (l : list A) : forall n x, In x (remove_nth n l) -> In x l.
Proof. induction l as [|y l IH]; intros [|n] x H; cbn in *; auto. destruct H; [left; assumption|right; eauto]. Qed.
Lemma nodup_remove_nth {A} (l : list A) : forall n, NoDup l -> NoDup (remove_nth n l).
Proof.
  induction l as [|y l IH]; intros [|n] H; cbn; auto; inversion H; subst; auto. constructor; auto. intros Hin. apply in_remove_nth in Hin. auto.
Qed.
Lemma not_in_remove_nth {A} (l : list A) : forall n x, NoDup l -> nth_error l n = Some x -> ~ In x (remove_nth n l).
Proof.
  induction l as [|y l IH]; intros [|n] x H E; cbn in *; try discriminate; inversion H; subst.
  - injection E as ->. assumption.
  - intros [->|Hin]; [apply nth_error_In in E; auto|]. eapply IH; eassumption.
Qed.

Lemma X_get a w ex did pick w1 i : RefX a w ex -> get_obj w did pick = (w1, i) ->
  RefX a w1 (i :: ex) /\ ~ In i (w_pool w1) /\ o_open (w_heap w1 i) = true /\
  (exists p, o_stmt (w_heap w1 i) = set_pos (get_stmt new_stmt did (a_dial a did)) p) /\ w_vars w1 = w_vars w /\ ~ In i ex /\
  (forall j, j <> i -> w_heap w1 j = w_heap w j) /\ (forall v x, a_vars a v = Some x -> w_vars w v <> Some i).
Proof.
  intros R. pose proof R as [D L I P N X Y].
  assert (NewCase : forall w1 i, (mkW (upd (w_heap w) (w_next w) (mkObj (get_stmt new_stmt did (w_dial w did)) true))
                     (S (w_next w)) (w_pool w) (w_vars w) (w_dial w), w_next w) = (w1, i) ->
    RefX a w1 (i :: ex) /\ ~ In i (w_pool w1) /\ o_open (w_heap w1 i) = true /\
    (exists p, o_stmt (w_heap w1 i) = set_pos (get_stmt new_stmt did (a_dial a did)) p) /\ w_vars w1 = w_vars w /\ ~ In i ex /\
    (forall j, j <> i -> w_heap w1 j = w_heap w j) /\ (forall v x, a_vars a v = Some x -> w_vars w v <> Some i)).
  { intros w1' i' H; injection H as <- <-. cbn.
    assert (Hp : ~ In (w_next w) (w_pool w)) by (intros H; apply P in H as [H _]; lia).
    assert (He : ~ In (w_next w) ex) by (intros H; apply X in H; lia).
    split; [|split; [exact Hp|split; [rewrite upd_same; reflexivity|split; [exists 0; rewrite upd_same, D; reflexivity|split; [reflexivity|split; [exact He|split; [intros; apply upd_other; assumption|]]]]]]].
    - constructor; cbn; auto.
      + intros v q known H. destruct (L _ _ _ H) as (j & K1 & K2 & K3 & K4 & K5 & K6). exists j. rewrite upd_other by lia. repeat split; auto; try lia.
        intros [E|E]; [lia|auto].
      + intros j Hj. destruct (P j Hj) as (P1 & P2 & P3). rewrite upd_other by lia. split; [lia|]. split; [exact P2|]. intros [E|E]; [lia|auto].
      + intros j [<-|Hj]; [lia|]. apply X in Hj. lia.
      + constructor; auto.
    - intros v [q k] H E. destruct (L _ _ _ H) as (j & K1 & K2 & _). rewrite K1 in E. injection E as ->. lia. }
  unfold get_obj. destruct pick as [n|]; [|apply NewCase]. destruct (nth_error (w_pool w) n) as [j|] eqn:En; [|apply NewCase].
  intros H; injection H as <- <-. cbn. assert (Hj : In j (w_pool w)) by (eapply nth_error_In; exact En).
  destruct (P j Hj) as (P1 & P2 & P3). pose proof (not_in_remove_nth _ _ _ N En) as Hr.
  split; [|split; [exact Hr|split; [rewrite upd_same; reflexivity|split; [|split; [reflexivity|split; [exact P3|split; [intros; apply upd_other; assumption|]]]]]]].
  - constructor; cbn; auto.
    + intros v q known H. destruct (L _ _ _ H) as (j' & K1 & K2 & K3 & K4 & K5 & K6). exists j'. assert (j' <> j) by congruence.
      rewrite upd_other by assumption. repeat split; auto. { intros Hin. apply K3. eapply in_remove_nth; exact Hin. } intros [E|E]; [congruence|auto].
    + intros j' Hj'. assert (j' <> j) by congruence. destruct (P j' (in_remove_nth _ _ _ Hj')) as (Q1 & Q2 & Q3). rewrite upd_other by assumption.
      split; [exact Q1|]. split; [exact Q2|]. intros [E|E]; [congruence|auto].
    + apply nodup_remove_nth; exact N.
    + intros j' [<-|Hj']; auto.
    + constructor; auto.
  - rewrite upd_same. cbn. exists (st_pos (o_stmt (w_heap w j))). rewrite D. apply get_stmt_clean; exact P2.
  - intros v [q k] H E. destruct (L _ _ _ H) as (j' & K1 & K2 & K3 & _). rewrite K1 in E. injection E as ->. auto.
Qed.

(** ** Statements that differ in position only *)
Lemma stmt_string_pos d q p : stmt_string d (set_pos q p) =
  match stmt_string d q with None => None | Some (d', q', s) => Some (d', set_pos q' p, s) end.
Proof.
  unfold stmt_string. cbn [set_pos st_sql]. change (cache_key (set_pos q p)) with (cache_key q).
  destruct (is_empty (st_sql q)); [|reflexivity]. destruct (get_cached _ _); [reflexivity|].
  change (render (is_pg d) (set_pos q p)) with (render (is_pg d) q). unfold render. cbn [set_pos st_buf st_chunks]. destruct (render_loop _ _ _ _ _ _ _); reflexivity.
Qed.
Lemma call_pos_set q p c : has_clause c = true -> call (set_pos q p) c = call q c.
Proof.
  intros H. destruct c; try discriminate; cbn [call]; unfold limit, offset; try apply addc_pos_irrel.
  unfold with_raw. rewrite addc_pos_irrel. reflexivity.
Qed.
Lemma same_up_call known q q' c q1 : same_up known q q' -> known || names_clause c = true -> call q c = Some q1 ->
  exists q1', call q' c = Some q1' /\ same_up (known || has_clause c) q1 q1'.
Proof.
  intros (p & E & Ek) Hk Hc. destruct known.
  - rewrite (Ek eq_refl). exists q1. split; [exact Hc|]. exists (st_pos q1). split; [destruct q1; reflexivity|reflexivity].
  - cbn [orb] in *. destruct (has_clause c) eqn:Eh.
    + exists q1. rewrite E, call_pos_set by exact Eh. split; [exact Hc|]. exists (st_pos q1). split; [destruct q1; reflexivity|reflexivity].
    + destruct (call_pos q p c Hk) as (p' & E2). rewrite E, E2, Hc. cbn [option_map]. eexists. split; [reflexivity|]. exists p'. split; [reflexivity|discriminate].
Qed.
Lemma same_up_refl known q : same_up known q q.
Proof. exists (st_pos q). split; [destruct q; reflexivity|reflexivity]. Qed.
Lemma construct_pos q p k : construct (set_pos q p) k = construct q k.
Proof. destruct k; cbn [construct call]; unfold with_raw, insert_into; rewrite addc_pos_irrel; reflexivity. Qed.
Lemma open_mk w i q : open_stmt (set_heap w i (mkObj q true)) i = Some q.
Proof. unfold open_stmt, set_heap; cbn. rewrite upd_same. reflexivity. Qed.
Lemma open_some w i : o_open (w_heap w i) = true -> open_stmt w i = Some (o_stmt (w_heap w i)).
Proof. intros H. unfold open_stmt. rewrite H. reflexivity. Qed.

Lemma X_embed a w o qo1 idx suffix u i a' s ia qo2 :
  RefX a w [o] -> ~ In o (w_pool w) -> w_heap w o = mkObj qo1 true -> w_vars w u = Some i ->
  aneutral a u = Some (a', s, ia) -> write_tail qo1 idx (s ++ suffix) = Some qo2 ->
  st_args (o_stmt (w_heap w i)) = ia /\
  exists w', embed w o idx i suffix = Some w' /\ RefX a' w' [o] /\ ~ In o (w_pool w') /\ w_heap w' o = mkObj qo2 true /\ w_vars w' = w_vars w.
Proof.
  intros R Hpo Ho Hu HA HW. unfold aneutral in HA. destruct (a_vars a u) as [[qu ku]|] eqn:Eu; [|discriminate]. cbn [bind] in HA.
  destruct (X_borrow a w [o] u qu ku i R Eu Hu) as (R1 & Hno & Hop & (p & Ep & _) & Hpi).
  assert (Hio : o <> i) by (intros ->; apply Hno; left; reflexivity).
  set (qi1 := if (st_dialect qu =? 0)%nat then qu else invalidate (set_dialect qu 0)) in *.
  assert (Hd : st_dialect qi1 = 0%nat) by (subst qi1; destruct (st_dialect qu =? 0)%nat eqn:E; [apply Nat.eqb_eq; exact E|reflexivity]).
  destruct (stmt_string (a_dial a 0%nat) qi1) as [[[d' qi2] s']|] eqn:ES; [|discriminate]. cbn [bind fst] in HA. injection HA as <- <- <-.
  split; [rewrite Ep; reflexivity|].
  unfold embed. rewrite (open_some w i Hop). cbn [bind].
  replace (if (st_dialect (o_stmt (w_heap w i)) =? 0)%nat then o_stmt (w_heap w i) else invalidate (set_dialect (o_stmt (w_heap w i)) 0)) with (set_pos qi1 p)
    by (rewrite Ep; subst qi1; cbn [set_pos st_dialect]; destruct (st_dialect qu =? 0)%nat; reflexivity).
  unfold string_obj. rewrite open_mk. cbn [bind]. change (st_dialect (set_pos qi1 p)) with (st_dialect qi1). rewrite Hd.
  change (w_dial (set_heap w i (mkObj (set_pos qi1 p) true)) 0%nat) with (w_dial w 0%nat). rewrite (r_dial _ _ _ R), stmt_string_pos, ES. cbn [bind fst snd].
  set (w1 := set_heap (set_dial (set_heap w i (mkObj (set_pos qi1 p) true)) 0 d') i (mkObj (set_pos qi2 p) true)).
  assert (Hw1o : w_heap w1 o = mkObj qo1 true) by (unfold w1; cbn; rewrite !upd_other by exact Hio; exact Ho).
  unfold open_stmt at 1. rewrite Hw1o. cbn [o_open o_stmt bind]. rewrite HW. cbn [bind].
  assert (R2 : RefX (aset (aset_dial a 0 d') u None) (set_heap w1 o (mkObj qo2 true)) [i; o]).
  { apply X_heap; [|right; left; reflexivity]. unfold w1. apply X_heap; [|left; reflexivity].
    apply (X_dial (aset a u None)). apply X_heap; [exact R1|left; reflexivity]. }
  destruct (X_close _ _ [o] i (set_pos qi2 p) R2) as (w' & C1 & C2 & C3 & C4 & C5).
  - exact Hpi.
  - unfold open_stmt, w1; cbn. rewrite upd_other by congruence. rewrite upd_same. reflexivity.
  - exists w'. split; [exact C1|]. split; [exact C2|]. split; [|split; [|rewrite C3; reflexivity]].
    + rewrite C4. intros Hin. apply in_app_or in Hin as [Hin|[Hin|[]]]; [apply Hpo; exact Hin|congruence].
    + rewrite C5 by exact Hio. cbn. apply upd_same.
Qed.

Lemma aneutral_live a u x : aneutral a u = Some x -> exists q k, a_vars a u = Some (q, k).
Proof. unfold aneutral. destruct (a_vars a u) as [[q k]|]; [eauto|discriminate]. Qed.

(** SubQuery on an owned outer object. *)
Lemma X_sub a w o qo p x u i a' s ia qo2 :
  RefX a w [o] -> ~ In o (w_pool w) -> w_heap w o = mkObj qo true -> w_vars w u = Some i ->
  aneutral a u = Some (a', s, ia) -> call qo (CSubQuery p x s ia) = Some qo2 ->
  exists w', sub_obj w o p x i = Some w' /\ RefX a' w' [o] /\ ~ In o (w_pool w') /\ w_heap w' o = mkObj qo2 true /\ w_vars w' = w_vars w.
Proof.
  intros R Hpo Ho Hu HA HC. unfold sub_obj. unfold open_stmt at 1. rewrite Ho. cbn [o_open o_stmt bind].
  assert (Hia : st_args (o_stmt (w_heap w i)) = ia).
  { destruct (aneutral_live _ _ _ HA) as (qu & ku & Eu). destruct (X_borrow _ _ _ _ _ _ _ R Eu Hu) as (_ & _ & _ & (pp & Ep & _) & _).
    unfold aneutral in HA. rewrite Eu in HA. cbn [bind] in HA. destruct (stmt_string _ _) as [[y z]|]; [|discriminate]. cbn [bind] in HA. injection HA as _ _ <-.
    rewrite Ep. reflexivity. }
  rewrite Hia. cbn [call] in HC. unfold sub_query_raw in HC. destruct (add_chunk qo _ _ _ _ _) as [[qo1 idx]|]; [|discriminate]. cbn [bind] in *.
  destruct (X_embed a (set_heap w o (mkObj qo1 true)) o qo1 idx x u i a' s ia qo2) as (_ & w' & E1 & E2 & E3 & E4 & E5); auto.
  - apply X_heap; [exact R|left; reflexivity].
  - cbn. apply upd_same.
  - exists w'. auto.
Qed.
Lemma X_with a w o qo n u i a' s ia qo2 :
  RefX a w [o] -> ~ In o (w_pool w) -> w_heap w o = mkObj qo true -> w_vars w u = Some i ->
  aneutral a u = Some (a', s, ia) -> call qo (CWith n s ia) = Some qo2 ->
  exists w', with_obj w o n i = Some w' /\ RefX a' w' [o] /\ ~ In o (w_pool w') /\ w_heap w' o = mkObj qo2 true /\ w_vars w' = w_vars w.
Proof.
  intros R Hpo Ho Hu HA HC. unfold with_obj. unfold open_stmt at 1. rewrite Ho. cbn [o_open o_stmt bind].
  cbn [call] in HC. unfold with_raw in HC. destruct (addc qo _ _ _ _ _) as [qo1|]; [|discriminate]. cbn [bind] in *.
  destruct (X_sub a (set_heap w o (mkObj qo1 true)) o qo1 (n ++ B " AS (") (B ")") u i a' s ia qo2) as (w' & E1 & E2 & E3 & E4 & E5); auto.
  - apply X_heap; [exact R|left; reflexivity].
  - cbn. apply upd_same.
  - exists w'. auto.
Qed.
Lemma X_union a w o qo all u i a' s ia qo2 :
  RefX a w [o] -> ~ In o (w_pool w) -> w_heap w o = mkObj qo true -> w_vars w u = Some i ->
  aneutral a u = Some (a', s, ia) -> call qo (CUnion all s ia) = Some qo2 ->
  exists w', union_obj w o all i = Some w' /\ RefX a' w' [o] /\ ~ In o (w_pool w') /\ w_heap w' o = mkObj qo2 true /\ w_vars w' = w_vars w.
Proof.
  intros R Hpo Ho Hu HA HC. unfold union_obj. unfold open_stmt at 1. rewrite Ho. cbn [o_open o_stmt bind].
  assert (Hia : st_args (o_stmt (w_heap w i)) = ia).
  { destruct (aneutral_live _ _ _ HA) as (qu & ku & Eu). destruct (X_borrow _ _ _ _ _ _ _ R Eu Hu) as (_ & _ & _ & (pp & Ep & _) & _).
    unfold aneutral in HA. rewrite Eu in HA. cbn [bind] in HA. destruct (stmt_string _ _) as [[y z]|]; [|discriminate]. cbn [bind] in HA. injection HA as _ _ <-.
    rewrite Ep. reflexivity. }
  rewrite Hia. cbn [call] in HC. unfold union_raw in HC. fold (union_pos qo) in HC. destruct (add_chunk qo _ _ _ _ _) as [[qo1 idx]|]; [|discriminate]. cbn [bind] in *.
  destruct (X_embed a (set_heap w o (mkObj qo1 true)) o qo1 idx [] u i a' s ia qo2) as (_ & w' & E1 & E2 & E3 & E4 & E5); auto.
  - apply X_heap; [exact R|left; reflexivity].
  - cbn. apply upd_same.
  - rewrite app_nil_r. exact HC.
  - exists w'. auto.
Qed.

(** A call with sub-statement on the outer variable, borrowed and given back. *)
Lemma outer_step a w v u q k a' s ia (c : bcall) q1 (f : world -> nat -> nat -> option world) :
  Ref a w -> v <> u -> a_vars a v = Some (q, k) -> aneutral a u = Some (a', s, ia) -> 
  (forall p, k = true \/ p = st_pos q \/ call (set_pos q p) c = call q c) ->
  call q c = Some q1 ->
  (forall a0 w o qo i a0' s ia qo2, RefX a0 w [o] -> ~ In o (w_pool w) -> w_heap w o = mkObj qo true -> w_vars w u = Some i ->
     aneutral a0 u = Some (a0', s, ia) -> a_dial a0 0%nat = a_dial a 0%nat -> a_vars a0 u = a_vars a u -> call qo c = Some qo2 ->
     exists w', f w o i = Some w' /\ RefX a0' w' [o] /\ ~ In o (w_pool w') /\ w_heap w' o = mkObj qo2 true /\ w_vars w' = w_vars w) ->
  exists w', (do o <- w_vars w v; do i <- w_vars w u; do w1 <- f w o i; Some (w1, @nil obs)) = Some (w', []) /\ Ref (aset a' v (Some (q1, true))) w'.
Proof.
  intros R Hvu Ev HA Hpos HC HF. destruct (aneutral_live _ _ _ HA) as (qu & ku & Eu).
  destruct (r_live _ _ _ R _ _ _ Ev) as (o & Hwo & Ho & _). destruct (r_live _ _ _ R _ _ _ Eu) as (i & Hwi & Hi & _).
  destruct (X_borrow a w [] v q k o R Ev Hwo) as (R1 & _ & Hop & (p & Ep & Ek) & Hpo).
  rewrite Hwo, Hwi. cbn [bind].
  destruct (aneutral (aset a v None) u) as [[[a0' s0] ia0]|] eqn:HA0.
  2: { exfalso. unfold aneutral, aset in *. cbn in HA0. rewrite upd_other in HA0 by congruence. rewrite Eu in *. cbn [bind] in *.
       destruct (stmt_string _ _) as [[x0 y0]|]; cbn [bind] in *; discriminate. }
  assert (HC' : call (o_stmt (w_heap w o)) c = Some q1).
  { destruct (Hpos p) as [->|[->|E]]; [rewrite (Ek eq_refl); exact HC| |rewrite Ep, E; exact HC].
    rewrite Ep. replace (set_pos q (st_pos q)) with q by (destruct q; reflexivity). exact HC. }
  destruct (HF (aset a v None) w o (o_stmt (w_heap w o)) i a0' s0 ia0 q1 R1 Hpo) as (w' & F1 & F2 & F3 & F4 & F5); auto.
  { destruct (w_heap w o) as [st op]. cbn in *. subst op. reflexivity. }
  { cbn. rewrite upd_other by congruence. reflexivity. }
  rewrite F1. cbn [bind]. exists w'. split; [reflexivity|].
  apply (Ref_ext (aset a0' v (Some (q1, true)))).
  - intros v'. unfold aneutral in HA, HA0. cbn [aset a_vars a_dial] in HA0. rewrite upd_other in HA0 by congruence. rewrite Eu in HA, HA0. cbn [bind] in HA, HA0.
    destruct (stmt_string _ _) as [[x0 y0]|]; [|discriminate]. cbn [bind] in HA, HA0. injection HA as <- _ _. injection HA0 as <- _ _.
    cbn. unfold upd. destruct (v' =? v)%nat; destruct (v' =? u)%nat; reflexivity.
  - intros did. unfold aneutral in HA, HA0. cbn [aset a_vars a_dial] in HA0. rewrite upd_other in HA0 by congruence. rewrite Eu in HA, HA0. cbn [bind] in HA, HA0.
    destruct (stmt_string _ _) as [[x0 y0]|]; [|discriminate]. cbn [bind] in HA, HA0. injection HA as <- _ _. injection HA0 as <- _ _. reflexivity.
  - eapply (X_give a0' w' [] v q1 true o); [exact F2|rewrite F5; exact Hwo|rewrite F4; reflexivity|rewrite F4; apply same_up_refl|exact F3].
Qed.

Lemma step_refines a w op pick a' ob : Ref a w -> astep a op = Some (a', ob) -> exists w', wstep w op pick = Some (w', ob) /\ Ref a' w'.
Proof.
  intros R. destruct op as [v did k|v c|v p x u|v n u|v all u|v did n u|v u|v|v|v|v|did b|did k s]; cbn [astep wstep].
  - (* WNew *)
    destruct (plain_ctor k); [|discriminate]. destruct (construct _ k) as [q|] eqn:EC; [|discriminate]. cbn [bind]. intros H; injection H as <- <-.
    destruct (get_obj w did pick) as [w1 i] eqn:EG. destruct (X_get _ _ _ _ _ _ _ R EG) as (R1 & G1 & G2 & (p & G3) & G4 & G5 & G6 & G7).
    rewrite (open_some _ _ G2). cbn [bind]. rewrite G3, construct_pos, EC. cbn [bind]. eexists. split; [reflexivity|].
    apply (X_give_var a (set_heap w1 i (mkObj q true)) [] v q true i).
    + apply X_heap; [exact R1|left; reflexivity].
    + cbn. rewrite upd_same. reflexivity.
    + cbn. rewrite upd_same. apply same_up_refl.
    + exact G1.
  - (* WCall *)
    destruct (plain_call c); [|discriminate]. destruct (a_vars a v) as [[q known]|] eqn:Ev; [|discriminate]. cbn [bind].
    destruct (known || names_clause c) eqn:Ek; [|discriminate]. destruct (call q c) as [q1|] eqn:EC; [|discriminate]. cbn [bind]. intros H; injection H as <- <-.
    destruct (r_live _ _ _ R _ _ _ Ev) as (i & Hwi & _). destruct (X_borrow _ _ _ _ _ _ _ R Ev Hwi) as (R1 & _ & Hop & Hs & Hp).
    destruct (same_up_call _ _ _ _ _ Hs Ek EC) as (q1' & EC' & Hs').
    rewrite Hwi. cbn [bind]. rewrite (open_some _ _ Hop). cbn [bind]. rewrite EC'. cbn [bind]. eexists. split; [reflexivity|].
    apply (Ref_ext (aset (aset a v None) v (Some (q1, known || has_clause c)))).
    + intros v'. cbn. destruct (upd_cases (a_vars a) v (Some (q1, known || has_clause c)) v') as [[-> E]|[Hn E]]; rewrite E; [rewrite upd_same; reflexivity|].
      rewrite !upd_other by assumption. reflexivity.
    + reflexivity.
    + apply (X_give (aset a v None) (set_heap w i (mkObj q1' true)) [] v q1 _ i).
      * apply X_heap; [exact R1|left; reflexivity].
      * exact Hwi.
      * cbn. rewrite upd_same. reflexivity.
      * cbn. rewrite upd_same. exact Hs'.
      * exact Hp.
  - (* WSub *)
    destruct (Nat.eqb_spec v u) as [|Hvu]; [discriminate|]. destruct (a_vars a v) as [[q known]|] eqn:Ev; [|discriminate]. cbn [bind].
    destruct known; [|discriminate]. destruct (aneutral a u) as [[[a1 s] ia]|] eqn:EA; [|discriminate]. cbn [bind fst snd].
    destruct (call q (CSubQuery p x s ia)) as [q1|] eqn:EC; [|discriminate]. cbn [bind]. intros H; injection H as <- <-.
    apply (outer_step a w v u q true a1 s ia (CSubQuery p x s ia) q1 (fun w o i => sub_obj w o p x i)); auto.
    intros a0 w0 o qo i a0' s' ia' qo2 R0 H1 H2 H3 H4 H5 H6 H7. eapply X_sub; try eassumption.
    unfold aneutral in EA, H4. rewrite H5, H6 in H4. destruct (a_vars a u) as [[qu ku]|]; [|discriminate]. cbn [bind] in *.
    destruct (stmt_string _ _) as [[x0 y0]|]; [|discriminate]. cbn [bind] in *. injection EA as <- <- <-. injection H4 as <- <- <-. exact H7.
  - (* WWith *)
    destruct (Nat.eqb_spec v u) as [|Hvu]; [discriminate|]. destruct (a_vars a v) as [[q known]|] eqn:Ev; [|discriminate]. cbn [bind].
    destruct (aneutral a u) as [[[a1 s] ia]|] eqn:EA; [|discriminate]. cbn [bind fst snd].
    destruct (call q (CWith n s ia)) as [q1|] eqn:EC; [|discriminate]. cbn [bind]. intros H; injection H as <- <-.
    apply (outer_step a w v u q known a1 s ia (CWith n s ia) q1 (fun w o i => with_obj w o n i)); [exact R|exact Hvu|exact Ev|exact EA| |exact EC|].
    + intros p. right; right. apply call_pos_set. reflexivity.
    + intros a0 w0 o qo i a0' s' ia' qo2 R0 H1 H2 H3 H4 H5 H6 H7. eapply X_with; try eassumption.
      unfold aneutral in EA, H4. rewrite H5, H6 in H4. destruct (a_vars a u) as [[qu ku]|]; [|discriminate]. cbn [bind] in *.
      destruct (stmt_string _ _) as [[x0 y0]|]; [|discriminate]. cbn [bind] in *. injection EA as <- <- <-. injection H4 as <- <- <-. exact H7.
  - (* WUnion *)
    destruct (Nat.eqb_spec v u) as [|Hvu]; [discriminate|]. destruct (a_vars a v) as [[q known]|] eqn:Ev; [|discriminate]. cbn [bind].
    destruct (aneutral a u) as [[[a1 s] ia]|] eqn:EA; [|discriminate]. cbn [bind fst snd].
    destruct (call q (CUnion all s ia)) as [q1|] eqn:EC; [|discriminate]. cbn [bind]. intros H; injection H as <- <-.
    apply (outer_step a w v u q known a1 s ia (CUnion all s ia) q1 (fun w o i => union_obj w o all i)); [exact R|exact Hvu|exact Ev|exact EA| |exact EC|].
    + intros p. right; right. rewrite !union_clause. change (union_pos (set_pos q p)) with (union_pos q). apply addc_pos_irrel.
    + intros a0 w0 o qo i a0' s' ia' qo2 R0 H1 H2 H3 H4 H5 H6 H7. eapply X_union; try eassumption.
      unfold aneutral in EA, H4. rewrite H5, H6 in H4. destruct (a_vars a u) as [[qu ku]|]; [|discriminate]. cbn [bind] in *.
      destruct (stmt_string _ _) as [[x0 y0]|]; [|discriminate]. cbn [bind] in *. injection EA as <- <- <-. injection H4 as <- <- <-. exact H7.
  - (* WNewWith *)
    destruct (aneutral a u) as [[[a1 s] ia]|] eqn:EA; [|discriminate]. cbn [bind fst snd].
    destruct (call _ (CWith n s ia)) as [q1|] eqn:EC; [|discriminate]. cbn [bind]. intros H; injection H as <- <-.
    destruct (aneutral_live _ _ _ EA) as (qu & ku & Eu). destruct (r_live _ _ _ R _ _ _ Eu) as (i & Hwi & _). rewrite Hwi. cbn [bind].
    destruct (get_obj w did pick) as [w1 o] eqn:EG. destruct (X_get _ _ _ _ _ _ _ R EG) as (R1 & G1 & G2 & (p & G3) & G4 & G5 & G6 & G7).
    destruct (X_with a w1 o (o_stmt (w_heap w1 o)) n u i a1 s ia q1) as (w' & F1 & F2 & F3 & F4 & F5); auto.
    + destruct (w_heap w1 o) as [st op]. cbn in *. subst op. reflexivity.
    + rewrite G4. exact Hwi.
    + rewrite G3, call_pos_set by reflexivity. exact EC.
    + rewrite F1. cbn [bind]. eexists. split; [reflexivity|]. apply (X_give_var a1 w' [] v q1 true o); auto; rewrite F4; [reflexivity|apply same_up_refl].
  - (* WClone *)
    destruct (a_vars a v) as [[q known]|] eqn:Ev; [|discriminate]. cbn [bind]. destruct (clone _ _ q) as [q1|] eqn:EC; [|discriminate]. cbn [bind].
    intros H; injection H as <- <-. destruct (r_live _ _ _ R _ _ _ Ev) as (i & Hwi & _ & _ & _ & Hop & (p0 & Ep0 & _)). rewrite Hwi. cbn [bind].
    unfold clone_obj. rewrite (open_some _ _ Hop). cbn [bind]. rewrite Ep0. cbn [set_pos st_dialect].
    destruct (get_obj w (st_dialect q) pick) as [w1 j] eqn:EG. destruct (X_get _ _ _ _ _ _ _ R EG) as (R1 & G1 & G2 & (p & G3) & G4 & G5 & G6 & G7).
    rewrite (open_some _ _ G2). cbn [bind]. rewrite G3. cbn [set_pos get_stmt new_stmt st_args st_dest st_name st_dialect st_pos st_chunks st_buf st_nl].
    rewrite !insert_at_nil. cbn [bind app].
    unfold clone in EC. cbn [get_stmt new_stmt st_args st_dest st_name st_dialect st_pos st_chunks st_buf st_nl] in EC. rewrite !insert_at_nil in EC. cbn [bind app] in EC.
    injection EC as <-. eexists. split; [reflexivity|].
    apply (X_give_var a (set_heap w1 j (mkObj (mkStmt [] (st_dialect q) p (st_chunks q) (st_buf q) (st_sql q) (st_args q) (st_dest q) (d_nl (a_dial a (st_dialect q)))) true)) [] u _ false j).
    + apply X_heap; [exact R1|left; reflexivity].
    + cbn. rewrite upd_same. reflexivity.
    + cbn. rewrite upd_same. cbn. exists p. split; [reflexivity|discriminate].
    + exact G1.
  - (* WString *)
    destruct (a_vars a v) as [[q known]|] eqn:Ev; [|discriminate]. cbn [bind]. destruct (stmt_string _ q) as [[[d' q2] s]|] eqn:ES; [|discriminate]. cbn [bind fst snd].
    intros H; injection H as <- <-. destruct (r_live _ _ _ R _ _ _ Ev) as (i & Hwi & _). destruct (X_borrow _ _ _ _ _ _ _ R Ev Hwi) as (R1 & _ & Hop & (p & Ep & Ek) & Hp).
    rewrite Hwi. cbn [bind]. unfold string_obj. rewrite (open_some _ _ Hop). cbn [bind]. rewrite Ep. cbn [set_pos st_dialect]. rewrite (r_dial _ _ _ R).
    pose proof (stmt_string_pos (a_dial a (st_dialect q)) q p) as EP. rewrite EP, ES. cbn [bind fst snd]. eexists. split; [reflexivity|].
    apply (Ref_ext (aset (aset_dial (aset a v None) (st_dialect q) d') v (Some (q2, known)))).
    + intros v'. cbn. destruct (upd_cases (a_vars a) v (Some (q2, known)) v') as [[-> E]|[Hn E]]; rewrite E; [rewrite upd_same; reflexivity|].
      rewrite !upd_other by assumption. reflexivity.
    + reflexivity.
    + apply (X_give _ _ [] v q2 known i).
      * apply X_heap; [|left; reflexivity]. apply X_dial. exact R1.
      * exact Hwi.
      * cbn. rewrite upd_same. reflexivity.
      * cbn. rewrite upd_same. cbn. exists p. split; [reflexivity|]. intros Hk. specialize (Ek Hk). rewrite Ep in Ek.
        assert (st_pos q2 = st_pos q).
        { unfold stmt_string in ES. destruct (is_empty (st_sql q)); [|injection ES as <- <- <-; reflexivity].
          destruct (get_cached _ _); [injection ES as <- <- <-; reflexivity|]. destruct (render _ _); [injection ES as <- <- <-; reflexivity|discriminate]. }
        assert (p = st_pos q) by (apply (f_equal st_pos) in Ek; exact Ek). subst p. rewrite <- H. destruct q2; reflexivity.
      * exact Hp.
  - (* WArgs *)
    destruct (a_vars a v) as [[q known]|] eqn:Ev; [|discriminate]. cbn [bind]. intros H; injection H as <- <-.
    destruct (r_live _ _ _ R _ _ _ Ev) as (i & Hwi & _ & _ & _ & Hop & (p & Ep & _)). rewrite Hwi. cbn [bind]. exists w. rewrite Ep. split; [reflexivity|exact R].
  - (* WDest *)
    destruct (a_vars a v) as [[q known]|] eqn:Ev; [|discriminate]. cbn [bind]. intros H; injection H as <- <-.
    destruct (r_live _ _ _ R _ _ _ Ev) as (i & Hwi & _ & _ & _ & Hop & (p & Ep & _)). rewrite Hwi. cbn [bind]. exists w. rewrite Ep. split; [reflexivity|exact R].
  - (* WClose *)
    destruct (a_vars a v) as [[q known]|] eqn:Ev; [|discriminate]. cbn [bind]. intros H; injection H as <- <-.
    destruct (r_live _ _ _ R _ _ _ Ev) as (i & Hwi & _). destruct (X_borrow _ _ _ _ _ _ _ R Ev Hwi) as (R1 & _ & Hop & _ & Hp).
    rewrite Hwi. cbn [bind]. destruct (X_close _ _ _ _ _ R1 Hp (open_some _ _ Hop)) as (w' & C1 & C2 & _). rewrite C1. cbn [bind]. exists w'. split; [reflexivity|exact C2].
  - intros H; injection H as <- <-. eexists. split; [reflexivity|]. rewrite (r_dial _ _ _ R). apply X_dial. exact R.
  - intros H; injection H as <- <-. eexists. split; [reflexivity|]. rewrite (r_dial _ _ _ R). apply X_dial. exact R.
Qed.

Lemma run_refines ops : forall a w picks a' ob, Ref a w -> length picks = length ops -> arun a ops = Some (a', ob) ->
  exists w', wrun w (combine ops picks) = Some (w', ob) /\ Ref a' w'.
Proof.
  induction ops as [|op ops IH]; intros a w [|pick picks] a' ob R HL; try discriminate; cbn [arun combine wrun].
  - intros H; injection H as <- <-. exists w. split; [reflexivity|exact R].
  - destruct (astep a op) as [[a1 o1]|] eqn:E1; [|discriminate]. cbn [bind]. destruct (arun a1 ops) as [[a2 o2]|] eqn:E2; [|discriminate]. cbn [bind].
    intros H; injection H as <- <-. destruct (step_refines _ _ _ pick _ _ R E1) as (w1 & F1 & R1). rewrite F1. cbn [bind].
    destruct (IH a1 w1 picks a2 o2 R1) as (w2 & F2 & R2); [cbn in HL; lia|exact E2|]. rewrite F2. cbn [bind]. exists w2. split; [reflexivity|exact R2].
Qed.
Lemma world0_ref d : Ref (aworld0 d) (world0 d).
Proof.
  constructor; try discriminate; try reflexivity; try (intros ? []); constructor.
Qed.
(** Whatever the pool does, a program that never uses a closed statement sees
    what it would see if every statement were private. *)
Lemma pool_invisible d ops picks a ob : length picks = length ops -> arun (aworld0 d) ops = Some (a, ob) ->
  exists w, wrun (world0 d) (combine ops picks) = Some (w, ob).
Proof. intros HL H. destruct (run_refines ops _ _ picks _ _ (world0_ref d) HL H) as (w & E & _). exists w; exact E. Qed.
