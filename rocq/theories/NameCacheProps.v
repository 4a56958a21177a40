(** Statements cached under the name of a parameter set: the documented way of using
    [QueryParams.Name()] (xdb params.go:106-144) with [GetOrCreateQuery]
    (xsql/cache.go:22-30), over whole histories of requests. *)
From Coq Require Import List Ascii String ZArith Lia Bool.
Import ListNotations.
From Verif Require Import GoBase GoBaseFacts TypeModel XsqlModel XsqlSpec XsqlProofs XsqlCache ParamModel ParamSpec ParamProofs ParamProps.
Open Scope Z_scope.
Set Implicit Arguments.

(** One request of a user: a query name, the calls made on a new parameter builder of
    that name, and the statement its callback would build for these parameters. *)
Record request := mkReq { rq_query : bytes; rq_calls : list call; rq_build : stmt }.
Definition key_of (mm : bytes -> Z) (r : request) : bytes := name_of mm (run mm (rq_query r) (rq_calls r)).
Arguments key_of : clear implicits.

(** The requests served one after the other by one dialect: each asks
    GetOrCreateQuery(params.Name(), callback) (cache.go:23-30). *)
Fixpoint serve (mm : bytes -> Z) (d : dialect) (rs : list request) : option (dialect * list bytes) :=
  match rs with
  | [] => Some (d, [])
  | r :: rest =>
      match get_or_create d (key_of mm r) (rq_build r) with
      | None => None
      | Some (d1, s, _) => match serve mm d1 rest with None => None | Some (d2, l) => Some (d2, s :: l) end
      end
  end.
Arguments serve : clear implicits.

(** Callbacks return statements that were not rendered before and that render. *)
Definition fresh_build (pg : bool) (r : request) : Prop := st_sql (rq_build r) = [] /\ render pg (rq_build r) <> None.
(** Two requests ask for the same thing as far as the builder's calls show: the same
    query, positions, enums, flags and kind of paging. *)
Definition same_shape (a b : request) : Prop :=
  rq_query a = rq_query b /\
  (forall p, (exists c, In c (accepted (rq_calls a)) /\ sets p c) <-> (exists c, In c (accepted (rq_calls b)) /\ sets p c)) /\
  enums_used (accepted (rq_calls a)) = enums_used (accepted (rq_calls b)) /\
  flags_used (accepted (rq_calls a)) = flags_used (accepted (rq_calls b)) /\
  paging_used (accepted (rq_calls a)) = paging_used (accepted (rq_calls b)).
Definition plain_calls (r : request) : Prop := Forall call_ok (rq_calls r) /\ no_name (rq_calls r) /\ no_null (rq_calls r).

Lemma text_nonempty mm b : pb_text mm b <> [].
Proof. unfold pb_text. destruct (qb_name b); discriminate. Qed.
Lemma key_nonempty mm r : key_of mm r <> [].
Proof.
  unfold key_of, name_of, pb_name. destruct (is_empty (qb_hash _)) eqn:E; cbn [snd]; [apply text_nonempty|].
  intros H. rewrite H in E. discriminate.
Qed.
Lemma render_set_name pg q n : render pg (set_name q n) = render pg q.
Proof. reflexivity. Qed.

Lemma goc_hit d n c v : get_cached d n = Some v -> get_or_create d n c = Some (d, v, false).
Proof. intros H. unfold get_or_create. rewrite H. reflexivity. Qed.
Lemma goc_miss d n c s : n <> [] -> st_sql c = [] -> get_cached d n = None -> render (is_pg d) c = Some s ->
  get_or_create d n c = Some (put_cached d n s, s, true).
Proof.
  intros Hn Hc Hg Hr. unfold get_or_create. rewrite Hg. unfold stmt_string. cbn [set_name st_sql]. rewrite Hc. cbn [is_empty].
  assert (K : cache_key (set_name c n) = n) by (unfold cache_key, strings_coalesce; cbn [set_name st_name]; destruct n; [congruence|reflexivity]).
  rewrite K, Hg, render_set_name, Hr. reflexivity.
Qed.

Definition first_with (mm : bytes -> Z) (k : bytes) (rs : list request) := find (fun r => beqb (key_of mm r) k) rs.
Arguments first_with : clear implicits.
Definition text_for (mm : bytes -> Z) (pg : bool) (k : bytes) (rs : list request) : option bytes :=
  match first_with mm k rs with Some r => render pg (rq_build r) | None => None end.
Arguments text_for : clear implicits.

Lemma first_app mm k l l' : first_with mm k (l ++ l') = match first_with mm k l with Some x => Some x | None => first_with mm k l' end.
Proof. unfold first_with. induction l as [|x l IH]; [reflexivity|]. cbn [app find]. destruct (beqb _ _); [reflexivity|exact IH]. Qed.

Lemma serve_first mm pg rs : forall seen d, is_pg d = pg ->
  (forall r, In r (seen ++ rs) -> get_cached d (key_of mm r) = text_for mm pg (key_of mm r) seen) ->
  (forall r, In r seen -> render pg (rq_build r) <> None) -> (forall r, In r rs -> fresh_build pg r) ->
  exists d2 l, serve mm d rs = Some (d2, l) /\ map Some l = map (fun r => text_for mm pg (key_of mm r) (seen ++ rs)) rs.
Proof.
  induction rs as [|q r IH]; intros seen d Hp G Hs H; [exists d, []; split; reflexivity|].
  destruct (H q (or_introl eq_refl)) as [Hq Rq]. cbn [serve].
  assert (Gq := G q ltac:(apply in_or_app; right; left; reflexivity)).
  assert (NX : forall s d' , is_pg d' = pg -> (forall x, In x (seen ++ q :: r) -> get_cached d' (key_of mm x) = text_for mm pg (key_of mm x) (seen ++ [q])) ->
    text_for mm pg (key_of mm q) (seen ++ q :: r) = Some s ->
    exists d2 l, match serve mm d' r with None => None | Some (d2, l) => Some (d2, s :: l) end = Some (d2, l) /\
      map Some l = map (fun x => text_for mm pg (key_of mm x) (seen ++ q :: r)) (q :: r)).
  { intros s d' Hp' G' Hf. destruct (IH (seen ++ [q]) d' Hp') as (d2 & l & E & M).
    - intros x I. rewrite <- app_assoc in I. exact (G' x I).
    - intros x [I|[<-|[]]]%in_app_or; [apply Hs, I|exact Rq].
    - intros x I. apply H. right. exact I.
    - rewrite E. exists d2, (s :: l). split; [reflexivity|]. cbn [map]. rewrite Hf, M, <- app_assoc. reflexivity. }
  destruct (first_with mm (key_of mm q) seen) as [q0|] eqn:F.
  - assert (I0 : In q0 seen) by (apply (find_some _ _ F)). destruct (render pg (rq_build q0)) as [s|] eqn:R0; [|exfalso; apply (Hs q0 I0), R0].
    unfold text_for in Gq. rewrite F, R0 in Gq. rewrite (@goc_hit _ _ (rq_build q) _ Gq). apply NX; [exact Hp| |unfold text_for; rewrite first_app, F; exact R0].
    intros x I. rewrite (G x I). unfold text_for. rewrite first_app. destruct (first_with mm (key_of mm x) seen) eqn:F1; [reflexivity|].
    unfold first_with. cbn [find]. destruct (beqb (key_of mm q) (key_of mm x)) eqn:Ek; [|reflexivity]. apply beqb_eq' in Ek. rewrite <- Ek in F1. congruence.
  - destruct (render pg (rq_build q)) as [s|] eqn:R; [|congruence]. unfold text_for in Gq. rewrite F in Gq.
    rewrite <- Hp in R. rewrite (@goc_miss _ _ _ _ (key_nonempty mm q) Hq Gq R). rewrite Hp in R. apply NX; [exact Hp| |].
    + intros x I. unfold text_for. rewrite first_app. destruct (list_eq_dec ascii_dec (key_of mm x) (key_of mm q)) as [Ex|N].
      * rewrite Ex, put_get, F. unfold first_with. cbn [find]. rewrite (proj2 (beqb_eq' _ _) eq_refl). symmetry. exact R.
      * rewrite put_get_other by exact N. rewrite (G x I). unfold text_for. destruct (first_with mm (key_of mm x) seen); [reflexivity|].
        unfold first_with. cbn [find]. destruct (beqb (key_of mm q) (key_of mm x)) eqn:Ek; [apply beqb_eq' in Ek; congruence|reflexivity].
    + unfold text_for. rewrite first_app, F. unfold first_with. cbn [find]. rewrite (proj2 (beqb_eq' _ _) eq_refl). exact R.
Qed.

(** ** C189 *)
(** Whatever the history, a request receives the text of the first request that had its name. *)
Theorem C189_first_partial : forall mm d rs, (forall r, In r rs -> fresh_build (is_pg d) r) -> (forall r, In r rs -> get_cached d (key_of mm r) = None) ->
  exists d2 l, serve mm d rs = Some (d2, l) /\ length l = length rs /\
    forall i r, nth_error rs i = Some r -> exists j r0, (j <= i)%nat /\ nth_error rs j = Some r0 /\ key_of mm r0 = key_of mm r /\
      (forall k r', (k < j)%nat -> nth_error rs k = Some r' -> key_of mm r' <> key_of mm r) /\
      nth_error (map Some l) i = Some (render (is_pg d) (rq_build r0)).
Proof.
  intros mm d rs H C. destruct (@serve_first mm (is_pg d) rs [] d eq_refl) as (d2 & l & E & M); [exact C|intros r []|exact H|]. cbn [app] in M.
  exists d2, l. split; [exact E|]. split; [rewrite <- (map_length Some l), M, map_length; reflexivity|]. intros i r Hi.
  assert (FX : forall (q : list request) i, nth_error q i = Some r -> exists j r0, (j <= i)%nat /\ nth_error q j = Some r0 /\ key_of mm r0 = key_of mm r /\
     (forall k r', (k < j)%nat -> nth_error q k = Some r' -> key_of mm r' <> key_of mm r) /\ first_with mm (key_of mm r) q = Some r0).
  { clear. induction q as [|x q IH]; intros i Hi; [destruct i; discriminate|]. destruct (beqb (key_of mm x) (key_of mm r)) eqn:Ex.
    - exists 0%nat, x. split; [lia|]. split; [reflexivity|]. split; [apply beqb_eq', Ex|]. split; [intros k r' Hk; lia|].
      unfold first_with. cbn [find]. rewrite Ex. reflexivity.
    - destruct i as [|i]; [injection Hi as ->; rewrite (proj2 (beqb_eq' _ _) eq_refl) in Ex; discriminate|].
      destruct (IH i Hi) as (j & r0 & A1 & A2 & A3 & A4 & A5). exists (S j), r0. split; [lia|]. split; [exact A2|]. split; [exact A3|]. split.
      + intros [|k] r' Hk Hr'; [injection Hr' as <-; intros Ek; apply beqb_eq' in Ek; congruence|]. apply (A4 k); [lia|exact Hr'].
      + unfold first_with. cbn [find]. rewrite Ex. exact A5. }
  destruct (FX rs i Hi) as (j & r0 & A1 & A2 & A3 & A4 & A5). exists j, r0. repeat (split; [assumption|]).
  rewrite M, nth_error_map, Hi. cbn [option_map]. unfold text_for. rewrite A5. reflexivity.
Qed.

(** So every request receives its own text exactly if requests of one name have one text. *)
Theorem C189_exact_partial : forall mm d rs, (forall r, In r rs -> fresh_build (is_pg d) r) -> (forall r, In r rs -> get_cached d (key_of mm r) = None) ->
  ((exists d2 l, serve mm d rs = Some (d2, l) /\ map Some l = map (fun r => render (is_pg d) (rq_build r)) rs) <->
   (forall a b, In a rs -> In b rs -> key_of mm a = key_of mm b -> render (is_pg d) (rq_build a) = render (is_pg d) (rq_build b))).
Proof.
  intros mm d rs H C. destruct (C189_first_partial mm d rs H C) as (d2 & l & E & L & A). split.
  - intros (d3 & l' & E' & M). rewrite E in E'. injection E' as <- <-. 
    assert (OWN : forall x, In x rs -> exists r0, first_with mm (key_of mm x) rs = Some r0 /\ render (is_pg d) (rq_build x) = render (is_pg d) (rq_build r0)).
    { destruct (@serve_first mm (is_pg d) rs [] d eq_refl) as (d4 & l4 & E4 & M4); [exact C|intros r []|exact H|]. rewrite E in E4. injection E4 as <- <-. cbn [app] in M4.
      intros x I. apply In_nth_error in I as [i Hi].
      assert (X : nth_error (map Some l) i = Some (render (is_pg d) (rq_build x))) by (rewrite M, nth_error_map, Hi; reflexivity).
      rewrite M4, nth_error_map, Hi in X. cbn [option_map] in X. injection X as X. unfold text_for in X.
      destruct (first_with mm (key_of mm x) rs) as [r0|] eqn:F; [exists r0; split; [reflexivity|symmetry; exact X]|].
      exfalso. apply nth_error_In in Hi. exact (proj2 (H x Hi) (eq_sym X)). }
    intros a b Ia Ib K. destruct (OWN a Ia) as (r1 & F1 & R1), (OWN b Ib) as (r2 & F2 & R2). rewrite K in F1. congruence.
  - intros S. destruct (@serve_first mm (is_pg d) rs [] d eq_refl) as (d4 & l4 & E4 & M4); [exact C|intros r []|exact H|]. cbn [app] in M4.
    exists d4, l4. split; [exact E4|]. rewrite M4. apply map_ext_in. intros r I. unfold text_for.
    destruct (first_with mm (key_of mm r) rs) as [r0|] eqn:F.
    + apply find_some in F as [I0 K]. apply S; [exact I0|exact I|apply beqb_eq', K].
    + apply (find_none _ _ F) in I. rewrite (proj2 (beqb_eq' _ _) eq_refl) in I. discriminate.
Qed.

(** With plain calls, a callback whose text follows from the shape of the parameters is
    served its own text at every request. *)
Theorem C189_own_partial : forall mm d rs, (forall r, In r rs -> fresh_build (is_pg d) r) -> (forall r, In r rs -> get_cached d (key_of mm r) = None) ->
  (forall r, In r rs -> plain_calls r) ->
  (forall a b, In a rs -> In b rs -> same_shape a b -> render (is_pg d) (rq_build a) = render (is_pg d) (rq_build b)) ->
  exists d2 l, serve mm d rs = Some (d2, l) /\ map Some l = map (fun r => render (is_pg d) (rq_build r)) rs.
Proof.
  intros mm d rs H C P S. apply C189_exact_partial; [exact H|exact C|]. intros a b Ia Ib K. apply S; [exact Ia|exact Ib|].
  destruct (P a Ia) as (A1 & A2 & A3), (P b Ib) as (B1 & B2 & B3).
  exact (proj1 (C55_name mm (rq_query a) (rq_query b) _ _ A1 B1 A2 B2 A3 B3) K).
Qed.

(** The full claim fails. *)
Definition ex_d : dialect := mkDialect (B "") [] false.
Definition built (cs : list bcall) : stmt :=
  match build new_stmt 1 ex_d (KSelect (B "x") []) cs with Some q => q | None => new_stmt end.
(** Two callers of one query: all rows with a = 7, and the first ten of them. *)
Definition ex_all_stmt : stmt := built [CFrom (B "t") []; CWhere (B "a = ?") []].
Definition ex_page_stmt : stmt := built [CFrom (B "t") []; CWhere (B "a = ?") []; CLimit (AUint32 10); COffset (AUint32 0)].
Definition ex_all : request := mkReq (B "list") [ParamModel.CSet 0 (AInt 7)] ex_all_stmt.
Definition ex_page : request := mkReq (B "list") [ParamModel.CSet 0 (AInt 7); CPage 10 0] ex_page_stmt.
Definition ex_next : request := mkReq (B "list") [ParamModel.CSet 0 (AInt 7); CPage 10 10] (rq_build ex_page).
(** The first page has the name of the query without a page, so whichever is asked first
    decides how many placeholders both receive, while each passes its own arguments. *)
Theorem C189_first_page_refuted : forall mm, exists a b, plain_calls a /\ plain_calls b /\ fresh_build false a /\ fresh_build false b /\
  qb_args (run mm (rq_query a) (rq_calls a)) = [AInt 7] /\
  qb_args (run mm (rq_query b) (rq_calls b)) = [AInt 7; AUint32 10; AUint32 0] /\
  render false (rq_build a) = Some (B "SELECT x FROM t WHERE a = ?") /\
  render false (rq_build b) = Some (B "SELECT x FROM t WHERE a = ? LIMIT ? OFFSET ?") /\
  (exists d1, serve mm ex_d [a; b] = Some (d1, [B "SELECT x FROM t WHERE a = ?"; B "SELECT x FROM t WHERE a = ?"])) /\
  (exists d2, serve mm ex_d [b; a] = Some (d2, [B "SELECT x FROM t WHERE a = ? LIMIT ? OFFSET ?"; B "SELECT x FROM t WHERE a = ? LIMIT ? OFFSET ?"])).
Proof.
  intros mm. exists ex_all, ex_page.
  assert (RA : render false ex_all_stmt = Some (B "SELECT x FROM t WHERE a = ?")) by (vm_compute; reflexivity).
  assert (RB : render false ex_page_stmt = Some (B "SELECT x FROM t WHERE a = ? LIMIT ? OFFSET ?")) by (vm_compute; reflexivity).
  assert (SA : st_sql ex_all_stmt = []) by (vm_compute; reflexivity). assert (SB : st_sql ex_page_stmt = []) by (vm_compute; reflexivity).
  assert (P : forall l, (forall c, In c l -> call_ok c /\ c <> CName /\ forall cs, c <> CNull cs) -> Forall call_ok l /\ no_name l /\ no_null l).
  { intros l A. split; [apply Forall_forall; intros c I; apply A, I|]. split; [intros I; apply (A _ I); reflexivity|intros cs I; apply (proj2 (proj2 (A _ I)) cs); reflexivity]. }
  assert (K : key_of mm ex_page = key_of mm ex_all) by (vm_compute; reflexivity).
  split; [apply P; intros c [<-|[]]; split; [cbn; unfold uint32_ok; lia|split; [discriminate|intros cs; discriminate]]|].
  split; [apply P; intros c [<-|[<-|[]]]; (split; [cbn; unfold uint32_ok; lia|split; [discriminate|intros cs; discriminate]])|].
  split; [split; [exact SA|cbn [rq_build ex_all]; rewrite RA; discriminate]|]. split; [split; [exact SB|cbn [rq_build ex_page]; rewrite RB; discriminate]|].
  split; [vm_compute; reflexivity|]. split; [vm_compute; reflexivity|]. split; [exact RA|]. split; [exact RB|].
  split; eexists; cbn [serve]; cbn [rq_build ex_all ex_page].
  - rewrite (@goc_miss ex_d _ ex_all_stmt _ (key_nonempty mm ex_all) SA eq_refl RA). rewrite K.
    rewrite (@goc_hit _ _ ex_page_stmt _ (put_get ex_d (key_of mm ex_all) _)). reflexivity.
  - rewrite (@goc_miss ex_d _ ex_page_stmt _ (key_nonempty mm ex_page) SB eq_refl RB). rewrite <- K.
    rewrite (@goc_hit _ _ ex_all_stmt _ (put_get ex_d (key_of mm ex_page) _)). reflexivity.
Qed.
Definition ex_null_a_stmt : stmt := built [CFrom (B "t") []; CWhere (B "a IS NULL") []; CWhere (B "bc IS NULL") []].
Definition ex_null_b_stmt : stmt := built [CFrom (B "t") []; CWhere (B "ab IS NULL") []; CWhere (B "c IS NULL") []].
Definition ex_null_a : request := mkReq (B "q") [CNull [B "a"; B "bc"]] ex_null_a_stmt.
Definition ex_null_b : request := mkReq (B "q") [CNull [B "ab"; B "c"]] ex_null_b_stmt.
(** And different sets of null columns may have one name. *)
Theorem C189_null_columns_refuted : forall mm, exists a b, fresh_build false a /\ fresh_build false b /\
  rq_calls a = [CNull [B "a"; B "bc"]] /\ rq_calls b = [CNull [B "ab"; B "c"]] /\
  render false (rq_build a) = Some (B "SELECT x FROM t WHERE a IS NULL AND bc IS NULL") /\
  render false (rq_build b) = Some (B "SELECT x FROM t WHERE ab IS NULL AND c IS NULL") /\
  exists d1 s, serve mm ex_d [a; b] = Some (d1, [s; s]) /\ Some s = render false (rq_build a).
Proof.
  intros mm. exists ex_null_a, ex_null_b.
  assert (RA : render false ex_null_a_stmt = Some (B "SELECT x FROM t WHERE a IS NULL AND bc IS NULL")) by (vm_compute; reflexivity).
  assert (RB : render false ex_null_b_stmt = Some (B "SELECT x FROM t WHERE ab IS NULL AND c IS NULL")) by (vm_compute; reflexivity).
  assert (SA : st_sql ex_null_a_stmt = []) by (vm_compute; reflexivity). assert (SB : st_sql ex_null_b_stmt = []) by (vm_compute; reflexivity).
  assert (K : key_of mm ex_null_b = key_of mm ex_null_a).
  { unfold key_of, ex_null_a, ex_null_b. cbn [rq_query rq_calls]. apply C56_exact_partial. right. split; [discriminate|]. split; [discriminate|]. reflexivity. }
  split; [split; [exact SA|cbn [rq_build ex_null_a]; rewrite RA; discriminate]|]. split; [split; [exact SB|cbn [rq_build ex_null_b]; rewrite RB; discriminate]|].
  split; [reflexivity|]. split; [reflexivity|]. split; [exact RA|]. split; [exact RB|].
  eexists _, _. split; [|symmetry; exact RA]. cbn [serve]. cbn [rq_build ex_null_a ex_null_b].
  rewrite (@goc_miss ex_d _ ex_null_a_stmt _ (key_nonempty mm ex_null_a) SA eq_refl RA). rewrite K.
  rewrite (@goc_hit _ _ ex_null_b_stmt _ (put_get ex_d (key_of mm ex_null_a) _)). reflexivity.
Qed.
(** The hypotheses are met by the two pages and a repeated request, which are served their own texts. *)
Example C189_own_ex : exists d2 l, serve (fun _ => 0) ex_d [ex_all; ex_next; ex_all; ex_next] = Some (d2, l) /\
  map Some l = [render false (rq_build ex_all); render false (rq_build ex_next); render false (rq_build ex_all); render false (rq_build ex_next)] /\
  length (d_cache d2) = 2%nat /\ key_of (fun _ => 0) ex_all = B "list_x1" /\ key_of (fun _ => 0) ex_next = B "list_x1_o".
Proof. eexists _, _. vm_compute. repeat split; reflexivity. Qed.
Example C189_first_ex : (forall r, In r [ex_all; ex_page; ex_next] -> fresh_build (is_pg ex_d) r /\ get_cached ex_d (key_of (fun _ => 0) r) = None /\ plain_calls r) /\
  key_of (fun _ => 0) ex_all = key_of (fun _ => 0) ex_page /\ render false (rq_build ex_all) <> render false (rq_build ex_page).
Proof.
  assert (RA : render false ex_all_stmt = Some (B "SELECT x FROM t WHERE a = ?")) by (vm_compute; reflexivity).
  assert (RB : render false ex_page_stmt = Some (B "SELECT x FROM t WHERE a = ? LIMIT ? OFFSET ?")) by (vm_compute; reflexivity).
  assert (SA : st_sql ex_all_stmt = []) by (vm_compute; reflexivity). assert (SB : st_sql ex_page_stmt = []) by (vm_compute; reflexivity).
  assert (D : is_pg ex_d = false) by (vm_compute; reflexivity). rewrite D.
  split; [|split; [vm_compute; reflexivity|cbn [rq_build ex_all ex_page]; rewrite RA, RB; discriminate]]. intros r I.
  split; [destruct I as [<-|[<-|[<-|[]]]]; (split; cbn [rq_build ex_all ex_page ex_next]; [assumption|rewrite ?RA, ?RB; discriminate])|].
  split; [reflexivity|].
  destruct I as [<-|[<-|[<-|[]]]]; (split; [repeat constructor; cbn; unfold uint32_ok; lia|split; [intros H|intros cs H]; cbn in H; intuition discriminate]).
Qed.

(** ** Assumptions *)
Print Assumptions C189_first_partial.
Print Assumptions C189_exact_partial.
Print Assumptions C189_own_partial.
Print Assumptions C189_first_page_refuted.
Print Assumptions C189_null_columns_refuted.
