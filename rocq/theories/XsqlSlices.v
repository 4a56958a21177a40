(** The argument and destination lists of statements as Go slices: backing arrays,
    capacities, append, copy (xsql/util.go, stmt.go, pool.go).  XsqlModel works on
    lists; here the lists are shown to be what the memory holds in every program, whatever
    the growth of append and the choices of the pool.
    A heap is a list of arrays; a slice is an array, an offset and a length.  A nil
    slice is a slice of an array of its own with capacity 0. *)
From Verif Require Import GoBase GoBaseFacts.
From Coq Require Import Lia Arith.

Definition heap (A : Type) := list (list (option A)).      (* None: a nil interface *)
Record slice := mkS { s_arr : nat; s_off : nat; s_len : nat }.
Definition cells {A} (h : heap A) (s : slice) : list (option A) := nth (s_arr s) h [].
Definition read {A} (h : heap A) (s : slice) : list (option A) := firstn (s_len s) (skipn (s_off s) (cells h s)).
Definition cap {A} (h : heap A) (s : slice) : nat := length (cells h s) - s_off s.
Definition put_cells {A} (l : list A) (off : nat) (new : list A) : list A := firstn off l ++ new ++ skipn (off + length new) l.
Fixpoint set_arr {A} (h : list A) (a : nat) (x : A) : list A :=
  match h, a with [], _ => [] | _ :: r, O => x :: r | y :: r, S a => y :: set_arr r a x end.
Definition store {A} (h : heap A) (a off : nat) (new : list (option A)) : heap A := set_arr h a (put_cells (nth a h []) off new).
(** Go spec: copy handles overlap; the smaller length counts *)
Definition go_copy {A} (h : heap A) (dst src : slice) : heap A :=
  store h (s_arr dst) (s_off dst) (firstn (Nat.min (s_len dst) (s_len src)) (read h src)).
(** Go spec: append writes behind the slice if the capacity suffices, else into a new
    array, with any spare capacity [g]. *)
Definition go_append {A} (g : nat) (h : heap A) (dst src : slice) : heap A * slice :=
  if (s_len dst + s_len src <=? cap h dst)%nat
  then (store h (s_arr dst) (s_off dst + s_len dst) (read h src), mkS (s_arr dst) (s_off dst) (s_len dst + s_len src))
  else (h ++ [read h dst ++ read h src ++ repeat None g], mkS (length h) 0 (s_len dst + s_len src)).
(** s[k:] *)
Definition from (s : slice) (k : nat) : slice := mkS (s_arr s) (s_off s + k) (s_len s - k).
(** util.go:3-15 insertAt *)
Definition insert_mem {A} (g : nat) (h : heap A) (dest src : slice) (index : nat) : heap A * slice :=
  if (0 <? s_len src)%nat then
    let oldLen := s_len dest in
    let '(h1, d) := go_append g h dest src in
    if (index <? oldLen)%nat then
      let h2 := go_copy h1 (from d (index + s_len src)) (from d index) in
      let h3 := go_copy h2 (from d index) src in (h3, d)
    else (h1, d)
  else (h, dest).

(** ** Cells *)
Lemma set_arr_len {A} (h : list A) : forall a x, length (set_arr h a x) = length h.
Proof. induction h as [|y h IH]; intros [|a] x; cbn; auto. Qed.
Lemma set_arr_nth {A} (h : list A) : forall a b x d, (a < length h)%nat -> nth b (set_arr h a x) d = if (b =? a)%nat then x else nth b h d.
Proof.
  induction h as [|y h IH]; intros [|a] [|b] x d L; cbn [length] in L; try lia; cbn [set_arr nth Nat.eqb]; try reflexivity. apply IH. lia.
Qed.
Lemma put_cells_len {A} (l new : list A) off : (off + length new <= length l)%nat -> length (put_cells l off new) = length l.
Proof. intros H. unfold put_cells. rewrite !app_length, firstn_length, skipn_length. lia. Qed.
Lemma nth_error_firstn {A} (l : list A) : forall n i, nth_error (firstn n l) i = if (i <? n)%nat then nth_error l i else None.
Proof. induction l as [|x l IH]; intros [|n] [|i]; cbn [firstn nth_error]; try reflexivity; [destruct (S i <? S n)%nat; reflexivity|]. rewrite IH. reflexivity. Qed.
Lemma nth_error_skipn {A} (l : list A) : forall n i, nth_error (skipn n l) i = nth_error l (n + i).
Proof. induction l as [|x l IH]; intros [|n] i; cbn [skipn nth_error Nat.add]; try reflexivity; [destruct i; reflexivity|]. apply IH. Qed.
Lemma put_cells_at {A} (l new : list A) off i : (off + length new <= length l)%nat ->
  nth_error (put_cells l off new) i = if (off <=? i)%nat && (i <? off + length new)%nat then nth_error new (i - off) else nth_error l i.
Proof.
  intros H. unfold put_cells. destruct (Nat.leb_spec off i) as [L|L]; cbn [andb].
  - rewrite nth_error_app2 by (rewrite firstn_length; lia). rewrite firstn_length, Nat.min_l by lia. destruct (Nat.ltb_spec i (off + length new)) as [K|K].
    + rewrite nth_error_app1 by lia. reflexivity.
    + rewrite nth_error_app2 by lia. rewrite nth_error_skipn. f_equal. lia.
  - rewrite nth_error_app1 by (rewrite firstn_length; lia). rewrite nth_error_firstn. destruct (Nat.ltb_spec i off); [reflexivity|lia].
Qed.
Lemma read_at {A} (h : heap A) s i : nth_error (read h s) i = if (i <? s_len s)%nat then nth_error (cells h s) (s_off s + i) else None.
Proof. unfold read. rewrite nth_error_firstn, nth_error_skipn. reflexivity. Qed.
Lemma list_ext {A} (a : list A) : forall b, (forall i, nth_error a i = nth_error b i) -> a = b.
Proof.
  induction a as [|x a IH]; intros [|y b] H; [reflexivity|discriminate (H 0%nat)|discriminate (H 0%nat)|]. pose proof (H 0%nat) as E. injection E as ->. f_equal. apply IH. intros i. exact (H (S i)).
Qed.
(** A slice within its array. *)
Definition valid {A} (h : heap A) (s : slice) : Prop := (s_arr s < length h)%nat /\ (s_off s + s_len s <= length (cells h s))%nat.
Lemma read_len {A} (h : heap A) s : valid h s -> length (read h s) = s_len s.
Proof. intros [_ V]. unfold read. rewrite firstn_length, skipn_length. lia. Qed.
Lemma cells_store {A} (h : heap A) a off new s : (a < length h)%nat -> cells (store h a off new) s = if (s_arr s =? a)%nat then put_cells (nth a h []) off new else cells h s.
Proof. intros L. unfold cells, store. apply set_arr_nth, L. Qed.
Lemma store_len {A} (h : heap A) a off new : length (store h a off new) = length h. Proof. apply set_arr_len. Qed.
Lemma store_caps {A} (h : heap A) a off new s : (a < length h)%nat -> (off + length new <= length (nth a h []))%nat -> length (cells (store h a off new) s) = length (cells h s).
Proof. intros L C. rewrite cells_store by exact L. destruct (Nat.eqb_spec (s_arr s) a) as [E|]; [|reflexivity]. rewrite put_cells_len by exact C. unfold cells. rewrite E. reflexivity. Qed.
Lemma read_other {A} (h : heap A) a off new s : (a < length h)%nat -> s_arr s <> a -> read (store h a off new) s = read h s.
Proof. intros L N. unfold read. rewrite cells_store by exact L. destruct (Nat.eqb_spec (s_arr s) a); [contradiction|reflexivity]. Qed.
(** A slice of another array, or cells not written. *)
Lemma read_apart {A} (h : heap A) a off new s : (a < length h)%nat -> (off + length new <= length (nth a h []))%nat ->
  s_arr s <> a \/ (s_off s + s_len s <= off)%nat -> read (store h a off new) s = read h s.
Proof.
  intros L C [N|N]; [apply read_other; assumption|]. destruct (Nat.eq_dec (s_arr s) a) as [E|E]; [|apply read_other; assumption].
  apply list_ext. intros i. rewrite !read_at. destruct (Nat.ltb_spec i (s_len s)); [|reflexivity]. rewrite cells_store by exact L. rewrite E, Nat.eqb_refl. rewrite put_cells_at by exact C.
  destruct (Nat.leb_spec off (s_off s + i)); [lia|]. cbn [andb]. unfold cells. rewrite E. reflexivity.
Qed.
Lemma cells_app {A} (h : heap A) x s : (s_arr s < length h)%nat -> cells (h ++ [x]) s = cells h s.
Proof. intros L. unfold cells. apply app_nth1, L. Qed.
Lemma read_app {A} (h : heap A) x s : (s_arr s < length h)%nat -> read (h ++ [x]) s = read h s.
Proof. intros L. unfold read. rewrite cells_app by exact L. reflexivity. Qed.

(** ** insertAt inserts *)
(** Where the source may be: in another array, or in the destination's own array not
    after the place of insertion. *)
Definition source_ok (dst src : slice) (index : nat) : Prop :=
  s_arr src <> s_arr dst \/ (s_off src <= s_off dst + index /\ s_off src + s_len src <= s_off dst + s_len dst)%nat.
Definition spliced {A} (d s : list A) (index : nat) : list A := firstn index d ++ s ++ skipn index d.
Lemma spliced_at {A} (d s : list A) index i : (index <= length d)%nat ->
  nth_error (spliced d s index) i = if (i <? index)%nat then nth_error d i else if (i <? index + length s)%nat then nth_error s (i - index) else nth_error d (i - length s).
Proof.
  intros L. unfold spliced. destruct (Nat.ltb_spec i index).
  - rewrite nth_error_app1 by (rewrite firstn_length; lia). rewrite nth_error_firstn. destruct (Nat.ltb_spec i index); [reflexivity|lia].
  - rewrite nth_error_app2 by (rewrite firstn_length; lia). rewrite firstn_length, Nat.min_l by lia. destruct (Nat.ltb_spec i (index + length s)).
    + rewrite nth_error_app1 by lia. reflexivity.
    + rewrite nth_error_app2 by lia. rewrite nth_error_skipn. f_equal. lia.
Qed.
(** After append: the contents, the source unless it was overwritten, validity. *)
Lemma append_spec {A} g (h : heap A) dst src h1 d : valid h dst -> valid h src -> go_append g h dst src = (h1, d) ->
  read h1 d = read h dst ++ read h src /\ valid h1 d /\ s_len d = (s_len dst + s_len src)%nat /\ (length h <= length h1)%nat /\
  (forall s, valid h s -> valid h1 s) /\
  (forall s, valid h s -> s_arr s <> s_arr dst \/ (s_off s + s_len s <= s_off dst + s_len dst)%nat -> read h1 s = read h s) /\
  ((s_arr d = s_arr dst /\ s_off d = s_off dst) \/ (s_arr d = length h /\ s_off d = 0%nat)).
Proof.
  intros [Vd1 Vd2] [Vs1 Vs2]. unfold go_append. destruct (Nat.leb_spec (s_len dst + s_len src) (cap h dst)) as [C|C]; intros [= <- <-]; cbn [s_arr s_off s_len].
  - unfold cap in C. assert (RL : length (read h src) = s_len src) by (apply read_len; split; assumption).
    assert (Fit : (s_off dst + s_len dst + length (read h src) <= length (nth (s_arr dst) h []))%nat) by (rewrite RL; unfold cells in *; lia).
    split; [|split; [|split; [reflexivity|split; [rewrite store_len; lia|split; [|split; [|left; auto]]]]]].
    + apply list_ext. intros i. rewrite read_at. cbn [s_len s_off]. rewrite cells_store by exact Vd1. cbn [s_arr]. rewrite Nat.eqb_refl, put_cells_at by exact Fit.
      destruct (Nat.ltb_spec i (s_len dst + s_len src)) as [I|I].
      * destruct (Nat.leb_spec (s_off dst + s_len dst) (s_off dst + i)) as [J|J]; cbn [andb].
        -- destruct (Nat.ltb_spec (s_off dst + i) (s_off dst + s_len dst + length (read h src))); [|lia]. rewrite nth_error_app2 by (rewrite read_len by (split; assumption); lia). rewrite read_len by (split; assumption). f_equal. lia.
        -- rewrite nth_error_app1 by (rewrite read_len by (split; assumption); lia). rewrite read_at. destruct (Nat.ltb_spec i (s_len dst)); [reflexivity|lia].
      * symmetry. apply nth_error_None. rewrite app_length, !read_len by (split; assumption). lia.
    + split; cbn [s_arr s_off s_len]; [rewrite store_len; exact Vd1|]. rewrite (store_caps h _ _ _ _ Vd1 Fit). unfold cells in *. cbn [s_arr]. lia.
    + intros s [V1 V2]. split; [rewrite store_len; exact V1|]. rewrite (store_caps h _ _ _ _ Vd1 Fit). exact V2.
    + intros s Vs [N|N]; (apply read_apart; [exact Vd1|exact Fit|]); [left; exact N|right; lia].
  - assert (NA : nth (length h) (h ++ [read h dst ++ read h src ++ repeat None g]) [] = read h dst ++ read h src ++ repeat None g) by (rewrite app_nth2, Nat.sub_diag by lia; reflexivity).
    split; [|split; [|split; [reflexivity|split; [rewrite app_length; lia|split; [|split; [|right; auto]]]]]].
    + unfold read at 1, cells. cbn [s_arr s_off s_len skipn]. rewrite NA, app_assoc. rewrite firstn_app. rewrite firstn_all2 by (rewrite app_length, !read_len by (split; assumption); lia).
      rewrite app_length, !read_len by (split; assumption). rewrite Nat.sub_diag. cbn [firstn]. apply app_nil_r.
    + split; [cbn [s_arr]; rewrite app_length; cbn [length]; lia|]. unfold cells. cbn [s_arr s_off s_len]. rewrite NA, !app_length, !read_len by (split; assumption). lia.
    + intros s [V1 V2]. split; [rewrite app_length; lia|]. rewrite cells_app by exact V1. exact V2.
    + intros s [V1 V2] _. apply read_app, V1.
Qed.
Lemma firstn_len_min {A} (l : list A) n : (n <= length l)%nat -> length (firstn n l) = n.
Proof. intros H. rewrite firstn_length. lia. Qed.
Lemma from_valid {A} (h : heap A) d k : valid h d -> (k <= s_len d)%nat -> valid h (from d k).
Proof. intros [V1 V2] K. split; [exact V1|]. change (cells h (from d k)) with (cells h d). cbn [from s_off s_len]. lia. Qed.
Lemma copy_fits {A} (h : heap A) dst src : valid h dst -> valid h src ->
  (s_off dst + length (firstn (Nat.min (s_len dst) (s_len src)) (read h src)) <= length (nth (s_arr dst) h []))%nat.
Proof. intros [D1 D2] V. rewrite firstn_len_min by (rewrite read_len by exact V; lia). unfold cells in D2. lia. Qed.
Lemma copy_valid {A} (h : heap A) dst src s : valid h dst -> valid h src -> valid h s -> valid (go_copy h dst src) s.
Proof. intros Vd Vs [V1 V2]. split; [unfold go_copy; rewrite store_len; exact V1|]. unfold go_copy. rewrite store_caps; [exact V2|apply Vd|apply copy_fits; assumption]. Qed.
Lemma copy_apart {A} (h : heap A) dst src s : valid h dst -> valid h src -> s_arr s <> s_arr dst \/ (s_off s + s_len s <= s_off dst)%nat -> read (go_copy h dst src) s = read h s.
Proof. intros Vd Vs N. apply read_apart; [apply Vd|apply copy_fits; assumption|exact N]. Qed.
(** Reading the slice that was copied into, [k] cells from its start. *)
Lemma copy_read {A} (h : heap A) d k src i : valid h d -> valid h src -> (k <= s_len d)%nat -> (i < s_len d)%nat ->
  nth_error (read (go_copy h (from d k) src) d) i =
    if (k <=? i)%nat && (i <? k + Nat.min (s_len d - k) (s_len src))%nat then nth_error (read h src) (i - k) else nth_error (read h d) i.
Proof.
  intros Vd Vs K I. pose proof (from_valid h d k Vd K) as Vf. rewrite read_at. destruct (Nat.ltb_spec i (s_len d)); [|lia]. unfold go_copy. rewrite cells_store by apply Vf. cbn [from s_arr s_off s_len].
  rewrite Nat.eqb_refl. pose proof (copy_fits h (from d k) src Vf Vs) as F. cbn [from s_arr s_off s_len] in F. rewrite put_cells_at by exact F.
  rewrite firstn_len_min by (rewrite read_len by exact Vs; lia).
  destruct (Nat.leb_spec (s_off d + k) (s_off d + i)), (Nat.leb_spec k i); try lia; cbn [andb].
  - destruct (Nat.ltb_spec (s_off d + i) (s_off d + k + Nat.min (s_len d - k) (s_len src))), (Nat.ltb_spec i (k + Nat.min (s_len d - k) (s_len src))); try lia.
    + rewrite nth_error_firstn. destruct (Nat.ltb_spec (s_off d + i - (s_off d + k)) (Nat.min (s_len d - k) (s_len src))); [|lia]. f_equal. lia.
    + rewrite read_at. destruct (Nat.ltb_spec i (s_len d)); [reflexivity|lia].
  - rewrite read_at. destruct (Nat.ltb_spec i (s_len d)); [reflexivity|lia].
Qed.
Lemma insert_spec {A} g (h : heap A) dst src index h' d : valid h dst -> valid h src -> (index <= s_len dst)%nat -> source_ok dst src index ->
  insert_mem g h dst src index = (h', d) ->
  read h' d = spliced (read h dst) (read h src) index /\ valid h' d /\ (length h <= length h')%nat /\
  (forall s, valid h s -> valid h' s) /\
  (forall s, valid h s -> s_arr s <> s_arr dst \/ (s_off s + s_len s <= s_off dst + index)%nat -> read h' s = read h s) /\
  ((s_arr d = s_arr dst /\ s_off d = s_off dst) \/ (s_arr d = length h /\ s_off d = 0%nat)).
Proof.
  intros Vd Vs Hi So. unfold insert_mem. destruct (Nat.ltb_spec 0 (s_len src)) as [Ls|Ls].
  2:{ intros [= <- <-]. assert (E : read h src = []) by (apply length_zero_iff_nil; rewrite read_len by exact Vs; lia). rewrite E. unfold spliced. cbn [app]. rewrite firstn_skipn. split; [reflexivity|]. split; [exact Vd|]. split; [lia|]. split; [auto|]. split; [auto|left; auto]. }
  destruct (go_append g h dst src) as [h1 d1] eqn:Ap. destruct (append_spec _ _ _ _ _ _ Vd Vs Ap) as (R1 & V1 & L1 & Len & Val & Apart & Pos).
  destruct (Nat.ltb_spec index (s_len dst)) as [J|J].
  2:{ intros [= <- <-]. assert (index = s_len dst) as -> by lia. unfold spliced. rewrite firstn_all2, skipn_all2 by (rewrite read_len by exact Vd; lia). rewrite app_nil_r. split; [exact R1|]. split; [exact V1|]. split; [exact Len|]. split; [exact Val|]. split; [exact Apart|exact Pos]. }
  cbv zeta. intros [= <- <-].
  set (k := s_len src) in *. set (F1 := from d1 (index + k)). set (F2 := from d1 index).
  assert (VF1 : valid h1 F1) by (apply from_valid; [exact V1|lia]). assert (VF2 : valid h1 F2) by (apply from_valid; [exact V1|lia]).
  assert (Vs1 : valid h1 src) by (apply Val, Vs).
  set (h2 := go_copy h1 F1 F2).
  assert (Vd2 : valid h2 d1) by (apply copy_valid; assumption). assert (Vs2 : valid h2 src) by (apply copy_valid; assumption). assert (VF2' : valid h2 F2) by (apply copy_valid; assumption).
  assert (RS : read h2 src = read h src).
  { transitivity (read h1 src).
    - apply copy_apart; [exact VF1|exact VF2|]. unfold F1. cbn [from s_arr s_off]. destruct Pos as [[P1 P2]|[P1 P2]]; rewrite P1.
      + rewrite P2. destruct So as [So|So]; [left; exact So|right; fold k in So; lia].
      + left. pose proof (proj1 Vs). lia.
    - apply Apart; [exact Vs|]. destruct So as [So|So]; [left; exact So|right; lia]. }
  split; [|split; [|split; [|split; [|split; [|exact Pos]]]]].
  - apply list_ext. intros i. rewrite spliced_at by (rewrite read_len by exact Vd; lia). rewrite (read_len h src) by exact Vs. fold k.
    destruct (Nat.ltb_spec i (s_len d1)) as [I|I].
    2:{ transitivity (@None (option A)); [apply nth_error_None; rewrite read_len; [exact I|apply copy_valid; assumption]|]. symmetry.
        destruct (Nat.ltb_spec i index); [lia|]. destruct (Nat.ltb_spec i (index + k)); [lia|]. apply nth_error_None. rewrite read_len by exact Vd. lia. }
    unfold F2. rewrite (copy_read h2 d1 index src i Vd2 Vs2) by lia. fold k. rewrite RS.
    replace (Nat.min (s_len d1 - index) k) with k by lia.
    unfold h2, F1. rewrite (copy_read h1 d1 (index + k) F2 i V1 VF2) by lia. unfold F2 at 1. cbn [from s_len].
    replace (Nat.min (s_len d1 - (index + k)) (s_len d1 - index)) with (s_len dst - index)%nat by lia.
    destruct (Nat.ltb_spec i index) as [Q|Q].
    + destruct (Nat.leb_spec index i); [lia|]. cbn [andb]. destruct (Nat.leb_spec (index + k) i); [lia|]. cbn [andb]. rewrite R1. apply nth_error_app1. rewrite read_len by exact Vd. lia.
    + destruct (Nat.leb_spec index i); [|lia]. cbn [andb]. destruct (Nat.ltb_spec i (index + k)) as [W|W]; [reflexivity|].
      destruct (Nat.leb_spec (index + k) i); [|lia]. cbn [andb]. destruct (Nat.ltb_spec i (index + k + (s_len dst - index))); [|lia].
      rewrite read_at. unfold F2. cbn [from s_len s_off]. change (cells h1 (from d1 index)) with (cells h1 d1). destruct (Nat.ltb_spec (i - (index + k)) (s_len d1 - index)); [|lia].
      transitivity (nth_error (read h1 d1) (i - k)); [rewrite read_at; destruct (Nat.ltb_spec (i - k) (s_len d1)); [f_equal; lia|lia]|]. rewrite R1. apply nth_error_app1. rewrite read_len by exact Vd. lia.
  - apply copy_valid; assumption.
  - unfold go_copy. rewrite store_len. unfold h2, go_copy. rewrite store_len. exact Len.
  - intros s V. apply copy_valid; [assumption|assumption|]. apply copy_valid; [assumption|assumption|]. apply Val, V.
  - intros s V N. transitivity (read h2 s); [|transitivity (read h1 s)].
    + apply copy_apart; [assumption|assumption|]. unfold F2. cbn [from s_arr s_off]. destruct Pos as [[P1 P2]|[P1 P2]]; rewrite P1; [rewrite P2; exact N|left; pose proof (proj1 V); lia].
    + apply copy_apart; [assumption|assumption|]. unfold F1. cbn [from s_arr s_off]. destruct Pos as [[P1 P2]|[P1 P2]]; rewrite P1; [rewrite P2; destruct N; [left; assumption|right; lia]|left; pose proof (proj1 V); lia].
    + apply Apart; [exact V|]. destruct N; [left; assumption|right; lia].
Qed.

(** ** Programs
    The statements of a program, the pool of closed ones, and the slices the program
    holds: its own, and those it got from Args(). *)
Record mem (A : Type) := mkM { m_heap : heap A; m_stmts : list (option slice); m_pool : list (option slice); m_views : list slice }.
Arguments mkM {A}. Arguments m_heap {A}. Arguments m_stmts {A}. Arguments m_pool {A}. Arguments m_views {A}.
Inductive src (A : Type) :=
| Lit (xs : list (option A))   (* the arguments of a variadic call *)
| ArgsOf (id : nat)            (* the args of a statement: a sub query, or q.Args()... *)
| Kept (n : nat).              (* a slice the program holds, passed with ... *)
Arguments Lit {A}. Arguments ArgsOf {A}. Arguments Kept {A}.
Inductive mop (A : Type) :=
| MNew (pick : option nat)                       (* dialect.go:125-163; pick: what the pool returns *)
| MKeep (xs : list (option A))                   (* the program makes a slice *)
| MArgs (id : nat)                               (* the program keeps q.Args() *)
| MAdd (id : nat) (s : src A) (index g : nat)    (* a clause with arguments; g: the growth of append *)
| MOver (id : nat) (s : src A) (index : nat)     (* LIMIT, OFFSET again: the arguments are overwritten *)
| MClone (id : nat) (pick : option nat) (g : nat)
| MClose (id : nat).
Arguments MNew {A}. Arguments MKeep {A}. Arguments MArgs {A}. Arguments MAdd {A}. Arguments MOver {A}. Arguments MClone {A}. Arguments MClose {A}.
Definition at_slot {X} (l : list (option X)) (i : nat) : option X := match nth_error l i with Some x => x | None => None end.
(** pool.go:13-27 newStmt, getStmt: an object of the pool, with the array it had, or a
    new one (args nil) *)
Definition get_mem {A} (m : mem A) (pick : option nat) : mem A * slice :=
  match pick with
  | Some k => match at_slot (m_pool m) k with
              | Some s => (mkM (m_heap m) (m_stmts m) (set_arr (m_pool m) k None) (m_views m), s)
              | None => (mkM (m_heap m ++ [[]]) (m_stmts m) (m_pool m) (m_views m), mkS (length (m_heap m)) 0 0)
              end
  | None => (mkM (m_heap m ++ [[]]) (m_stmts m) (m_pool m) (m_views m), mkS (length (m_heap m)) 0 0)
  end.
(** The slice passed: the array of a variadic call is new *)
Definition src_mem {A} (m : mem A) (s : src A) : heap A * option slice :=
  match s with
  | Lit xs => (m_heap m ++ [xs], Some (mkS (length (m_heap m)) 0 (length xs)))
  | ArgsOf id => (m_heap m, at_slot (m_stmts m) id)
  | Kept n => (m_heap m, nth_error (m_views m) n)
  end.
Definition mstep {A} (m : mem A) (o : mop A) : mem A :=
  match o with
  | MNew pick => let '(m, s) := get_mem m pick in mkM (m_heap m) (m_stmts m ++ [Some s]) (m_pool m) (m_views m)
  | MKeep xs => mkM (m_heap m ++ [xs]) (m_stmts m) (m_pool m) (m_views m ++ [mkS (length (m_heap m)) 0 (length xs)])
  | MArgs id =>                                            (* stmt.go:957-959 Args *)
      match at_slot (m_stmts m) id with
      | Some s => mkM (m_heap m) (m_stmts m) (m_pool m) (m_views m ++ [s])
      | None => m
      end
  | MAdd id s index g =>                                   (* stmt.go:1150-1152 addChunk *)
      let '(h, sl) := src_mem m s in
      match at_slot (m_stmts m) id, sl with
      | Some d, Some sl => let '(h, d) := insert_mem g h d sl index in mkM h (set_arr (m_stmts m) id (Some d)) (m_pool m) (m_views m)
      | _, _ => m
      end
  | MOver id s index =>                                    (* stmt.go:1081-1083 addChunk *)
      let '(h, sl) := src_mem m s in
      match at_slot (m_stmts m) id, sl with
      | Some d, Some sl => mkM (go_copy h (from d index) sl) (m_stmts m) (m_pool m) (m_views m)
      | _, _ => m
      end
  | MClone id pick g =>                                    (* stmt.go:996-1014 Clone *)
      match at_slot (m_stmts m) id with
      | Some s => let '(m, d) := get_mem m pick in
                  let '(h, d) := insert_mem g (m_heap m) d s 0 in
                  mkM h (m_stmts m ++ [Some d]) (m_pool m) (m_views m)
      | None => m
      end
  | MClose id =>                                           (* pool.go:29-50 reuseStmt *)
      match at_slot (m_stmts m) id with
      | Some s => mkM (store (m_heap m) (s_arr s) (s_off s) (repeat None (s_len s))) (set_arr (m_stmts m) id None)
                      (m_pool m ++ [Some (mkS (s_arr s) (s_off s) 0)]) (m_views m)
      | None => m
      end
  end.
Definition mrun {A} (ops : list (mop A)) : mem A := fold_left mstep ops (mkM [] [] [] []).

(** ** What the program relies on
    Statements are lists; a slice from Args() belongs to its statement and is lost (None)
    when the statement is closed or changed before the slice's end. *)
Record pure (A : Type) := mkP { p_stmts : list (option (list (option A))); p_views : list (option nat * option (list (option A))) }.
Arguments mkP {A}. Arguments p_stmts {A}. Arguments p_views {A}.
Definition lose {A} (id index : nat) (v : option nat * option (list (option A))) : option nat * option (list (option A)) :=
  match v with
  | (Some o, Some xs) => if (o =? id)%nat && (index <? length xs)%nat then (Some o, None) else v
  | _ => v
  end.
Definition lose_all {A} (id : nat) (v : option nat * option (list (option A))) : option nat * option (list (option A)) :=
  match v with (Some o, _) => if (o =? id)%nat then (Some o, None) else v | _ => v end.
Definition src_pure {A} (p : pure A) (s : src A) : option (list (option A)) :=
  match s with
  | Lit xs => Some xs
  | ArgsOf id => at_slot (p_stmts p) id
  | Kept n => match nth_error (p_views p) n with Some (_, v) => v | None => None end
  end.
Definition overwritten {A} (d s : list A) (index : nat) : list A := firstn index d ++ firstn (length d - index) s ++ skipn (index + length s) d.
Definition pstep {A} (p : pure A) (o : mop A) : pure A :=
  match o with
  | MNew _ => mkP (p_stmts p ++ [Some []]) (p_views p)
  | MKeep xs => mkP (p_stmts p) (p_views p ++ [(None, Some xs)])
  | MArgs id => match at_slot (p_stmts p) id with Some l => mkP (p_stmts p) (p_views p ++ [(Some id, Some l)]) | None => p end
  | MAdd id s index _ =>
      match at_slot (p_stmts p) id, src_pure p s with
      | Some d, Some xs => mkP (set_arr (p_stmts p) id (Some (spliced d xs index))) (map (lose id index) (p_views p))
      | _, _ => p
      end
  | MOver id s index =>
      match at_slot (p_stmts p) id, src_pure p s with
      | Some d, Some xs => mkP (set_arr (p_stmts p) id (Some (overwritten d xs index))) (map (lose id index) (p_views p))
      | _, _ => p
      end
  | MClone id _ _ => match at_slot (p_stmts p) id with Some l => mkP (p_stmts p ++ [Some l]) (p_views p) | None => p end
  | MClose id => match at_slot (p_stmts p) id with Some _ => mkP (set_arr (p_stmts p) id None) (map (lose_all id) (p_views p)) | None => p end
  end.
Definition prun {A} (ops : list (mop A)) : pure A := fold_left pstep ops (mkP [] []).
(** No use after Close, no slice that was lost, places within the list. *)
Definition legal {A} (p : pure A) (o : mop A) : Prop :=
  match o with
  | MNew _ | MKeep _ => True
  | MArgs id | MClone id _ _ | MClose id => at_slot (p_stmts p) id <> None
  | MAdd id s index _ | MOver id s index =>
      src_pure p s <> None /\ exists d, at_slot (p_stmts p) id = Some d /\ (index <= length d)%nat
  end.
Fixpoint all_legal {A} (p : pure A) (ops : list (mop A)) : Prop :=
  match ops with [] => True | o :: r => legal p o /\ all_legal (pstep p o) r end.

(** ** The memory holds the lists *)
Definition holder {A} (m : mem A) (a : bool * nat) : option slice := at_slot (if fst a then m_stmts m else m_pool m) (snd a).
Record inv {A} (m : mem A) (p : pure A) : Prop := {
  iv_ns : length (m_stmts m) = length (p_stmts p);
  iv_nv : length (m_views m) = length (p_views p);
  iv_valid : forall a s, holder m a = Some s -> valid (m_heap m) s /\ s_off s = 0%nat;
  iv_inj : forall a b s t, holder m a = Some s -> holder m b = Some t -> s_arr s = s_arr t -> a = b;
  iv_pool : forall k s, at_slot (m_pool m) k = Some s -> s_len s = 0%nat;
  iv_read : forall id, match at_slot (p_stmts p) id, at_slot (m_stmts m) id with
                       | Some l, Some s => read (m_heap m) s = l | None, None => True | _, _ => False end;
  iv_owner : forall n o l, nth_error (p_views p) n = Some (Some o, l) -> (o < length (p_stmts p))%nat;
  iv_view : forall n o l v, nth_error (p_views p) n = Some (o, Some l) -> nth_error (m_views m) n = Some v ->
     valid (m_heap m) v /\ read (m_heap m) v = l /\
     ((forall a s, holder m a = Some s -> s_arr s <> s_arr v) \/
      exists id s, o = Some id /\ at_slot (m_stmts m) id = Some s /\ s_arr v = s_arr s /\ s_off v = 0%nat /\ (s_len v <= s_len s)%nat) }.
Lemma nth_error_set {X} (l : list X) : forall i j x, (i < length l)%nat -> nth_error (set_arr l i x) j = if (j =? i)%nat then Some x else nth_error l j.
Proof. induction l as [|y l IH]; intros [|i] [|j] x L; cbn [length] in L; try lia; cbn [set_arr nth_error Nat.eqb]; try reflexivity. apply IH. lia. Qed.
Lemma at_slot_lt {X} (l : list (option X)) i x : at_slot l i = Some x -> (i < length l)%nat.
Proof. unfold at_slot. destruct (nth_error l i) eqn:E; [|discriminate]. intros _. apply nth_error_Some. congruence. Qed.
Lemma at_slot_set {X} (l : list (option X)) i j x : (i < length l)%nat -> at_slot (set_arr l i x) j = if (j =? i)%nat then x else at_slot l j.
Proof. intros L. unfold at_slot. rewrite nth_error_set by exact L. destruct (j =? i)%nat; reflexivity. Qed.
Lemma at_slot_app {X} (l : list (option X)) x j : at_slot (l ++ [x]) j = if (j =? length l)%nat then x else at_slot l j.
Proof.
  unfold at_slot. destruct (Nat.eqb_spec j (length l)) as [->|N].
  - rewrite nth_error_app2, Nat.sub_diag by lia. reflexivity.
  - destruct (Nat.lt_ge_cases j (length l)); [rewrite nth_error_app1 by lia; reflexivity|].
    rewrite (proj2 (nth_error_None (l ++ [x]) j)) by (rewrite app_length; cbn [length]; lia). rewrite (proj2 (nth_error_None l j)) by lia. reflexivity.
Qed.
(** An array is added: nothing else changes. *)
Lemma inv_grow {A} (m : mem A) p x : inv m p -> inv (mkM (m_heap m ++ [x]) (m_stmts m) (m_pool m) (m_views m)) p.
Proof.
  intros [H1 H2 H3 H4 H5 H6 H8 H7]. split; cbn [m_heap m_stmts m_pool m_views]; auto.
  - intros a s Ha. destruct (H3 a s Ha) as [[V1 V2] O]. split; [|exact O]. split; [rewrite app_length; lia|]. rewrite cells_app by exact V1. exact V2.
  - intros id. specialize (H6 id). destruct (at_slot (p_stmts p) id), (at_slot (m_stmts m) id) as [s|] eqn:E; auto. rewrite read_app; [exact H6|]. apply (H3 (true, id) s E).
  - intros n o l v E1 E2. destruct (H7 n o l v E1 E2) as ([V1 V2] & R & P). split; [split; [rewrite app_length; lia|rewrite cells_app by exact V1; exact V2]|]. split; [rewrite read_app by exact V1; exact R|exact P].
Qed.
Lemma set_arr_last {X} (l : list X) x y : set_arr (l ++ [x]) (length l) y = l ++ [y].
Proof. induction l as [|z l IH]; cbn [app length set_arr]; [reflexivity|]. rewrite IH. reflexivity. Qed.
Lemma holder_set {A} (m : mem A) (h : heap A) id d a : (id < length (m_stmts m))%nat ->
  holder (mkM h (set_arr (m_stmts m) id d) (m_pool m) (m_views m)) a = if fst a && (snd a =? id)%nat then d else holder m a.
Proof. intros L. unfold holder. destruct a as [[] i]; cbn [fst snd andb m_stmts m_pool]; [rewrite at_slot_set by exact L|]; reflexivity. Qed.
Lemma lose_kept {A} id index (v : option nat * option (list (option A))) o l : lose id index v = (o, Some l) -> v = (o, Some l) /\ (o = Some id -> (length l <= index)%nat).
Proof.
  destruct v as [[o'|] [xs|]]; cbn [lose]; try (intros [= <- <-]; split; [reflexivity|discriminate]); try discriminate.
  destruct (Nat.eqb_spec o' id); cbn [andb]; [|intros [= <- <-]; split; [reflexivity|congruence]].
  destruct (Nat.ltb_spec index (length xs)); intros [=]; subst; auto.
Qed.
Lemma lose_owner {A} id index (v : option nat * option (list (option A))) : fst (lose id index v) = fst v.
Proof. destruct v as [[o'|] [xs|]]; cbn [lose]; try reflexivity. destruct (_ && _); reflexivity. Qed.
(** A statement changes: its array, or a new one. *)
Lemma inv_change {A} (m : mem A) p id index s0 h' d newl : inv m p -> at_slot (m_stmts m) id = Some s0 ->
  (forall s, valid (m_heap m) s -> valid h' s) -> valid h' d -> s_off d = 0%nat ->
  s_arr d = s_arr s0 \/ (length (m_heap m) <= s_arr d)%nat -> (s_len s0 <= s_len d)%nat -> read h' d = newl ->
  (forall s, valid (m_heap m) s -> s_arr s <> s_arr s0 \/ (s_off s + s_len s <= index)%nat -> read h' s = read (m_heap m) s) ->
  inv (mkM h' (set_arr (m_stmts m) id (Some d)) (m_pool m) (m_views m)) (mkP (set_arr (p_stmts p) id (Some newl)) (map (lose id index) (p_views p))).
Proof.
  intros I E Val Vd Od Arr Len Rd Apart. pose proof (at_slot_lt _ _ _ E) as L. destruct I as [H1 H2 H3 H4 H5 H6 H8 H7].
  assert (Other : forall a s, holder m a = Some s -> a <> (true, id) -> s_arr s <> s_arr s0 /\ s_arr s <> s_arr d).
  { intros a s Ha N. assert (s_arr s <> s_arr s0) as N0 by (intros Q; apply N; apply (H4 a (true, id) s s0 Ha E Q)). split; [exact N0|]. destruct Arr as [->|Q]; [exact N0|]. destruct (H3 a s Ha) as [[V _] _]. lia. }
  assert (Neq : forall a, fst a && (snd a =? id)%nat = false -> a <> (true, id)) by (intros [b i] Q [= -> ->]; cbn [fst snd andb] in Q; rewrite Nat.eqb_refl in Q; discriminate).
  assert (Yes : forall a, fst a && (snd a =? id)%nat = true -> a = (true, id)) by (intros [[] i] Q; cbn [fst snd andb] in Q; [apply Nat.eqb_eq in Q; subst; reflexivity|discriminate]).
  split; cbn [p_stmts p_views].
  - cbn [m_stmts]. rewrite !set_arr_len. exact H1.
  - cbn [m_views]. rewrite map_length. exact H2.
  - intros a s. rewrite holder_set by exact L. cbn [m_heap]. destruct (fst a && (snd a =? id)%nat) eqn:Q; [intros [= <-]; auto|]. intros Ha. destruct (H3 a s Ha). auto.
  - intros a b s t. rewrite !holder_set by exact L. destruct (fst a && (snd a =? id)%nat) eqn:Qa, (fst b && (snd b =? id)%nat) eqn:Qb.
    + intros _ _ _. rewrite (Yes a Qa), (Yes b Qb). reflexivity.
    + intros [= <-] Hb Q. exfalso. apply (proj2 (Other b t Hb (Neq b Qb))). auto.
    + intros Ha [= <-] Q. exfalso. apply (proj2 (Other a s Ha (Neq a Qa))). auto.
    + apply H4.
  - exact H5.
  - intros i. cbn [m_stmts m_heap]. rewrite !at_slot_set by (rewrite <- ?H1; exact L). destruct (Nat.eqb_spec i id) as [->|N]; [exact Rd|]. specialize (H6 i).
    destruct (at_slot (p_stmts p) i), (at_slot (m_stmts m) i) as [s|] eqn:Ei; auto. rewrite Apart; [exact H6|apply (H3 (true, i) s Ei)|]. left. apply (Other (true, i) s Ei). congruence.
  - intros n o l. rewrite nth_error_map, set_arr_len. destruct (nth_error (p_views p) n) as [v|] eqn:Ev; cbn [option_map]; [|discriminate]. intros [= Q]. pose proof (lose_owner id index v) as F. rewrite Q in F. cbn [fst] in F.
    destruct v as [o' l']. cbn [fst] in F. subst o'. eapply H8, Ev.
  - intros n o l v. rewrite nth_error_map. destruct (nth_error (p_views p) n) as [w|] eqn:Ew; cbn [option_map]; [|discriminate]. intros [= Q] Ev. apply lose_kept in Q. destruct Q as [-> Lo]. cbn [m_views m_heap] in Ev |- *.
    destruct (H7 n o l v Ew Ev) as (Vv & Rv & P). split; [apply Val, Vv|].
    destruct P as [P|(i & s & -> & Ei & Ea & Eo & El)].
    + split; [rewrite Apart; [exact Rv|exact Vv|left; intros Q; apply (P (true, id) s0 E); auto]|]. left. intros a s. rewrite holder_set by exact L. destruct (fst a && (snd a =? id)%nat); [|apply P].
      intros [= <-]. destruct Arr as [->|Q]; [apply (P (true, id) s0 E)|]. destruct Vv. lia.
    + destruct (Nat.eq_dec i id) as [->|N].
      * assert (s = s0) by congruence. subst s. assert (s_len v = length l) by (rewrite <- Rv; symmetry; apply read_len, Vv). specialize (Lo eq_refl).
        split; [rewrite Apart; [exact Rv|exact Vv|right; lia]|]. destruct (Nat.eq_dec (s_arr d) (s_arr s0)) as [Q|Q].
        -- right. exists id, d. cbn [m_stmts]. rewrite at_slot_set, Nat.eqb_refl by exact L. repeat split; auto; lia.
        -- left. intros a s. rewrite holder_set by exact L. destruct (fst a && (snd a =? id)%nat) eqn:Qa; [intros [= <-]; congruence|]. intros Ha. rewrite Ea. apply (Other a s Ha). apply Neq, Qa.
      * destruct (Other (true, i) s Ei ltac:(congruence)) as [N1 N2]. split; [rewrite Apart; [exact Rv|exact Vv|left; congruence]|].
        right. exists i, s. cbn [m_stmts]. rewrite at_slot_set by exact L. destruct (Nat.eqb_spec i id); [contradiction|]. repeat split; auto.
Qed.
Lemma inv_src {A} (m : mem A) p s xs : inv m p -> src_pure p s = Some xs ->
  exists h sl, src_mem m s = (h, Some sl) /\ inv (mkM h (m_stmts m) (m_pool m) (m_views m)) p /\ valid h sl /\ read h sl = xs /\
    forall id d index, at_slot (m_stmts m) id = Some d -> source_ok d sl index.
Proof.
  intros I. destruct s as [l|i|n]; cbn [src_pure src_mem].
  - intros [= <-]. exists (m_heap m ++ [l]), (mkS (length (m_heap m)) 0 (length l)). split; [reflexivity|]. split; [apply inv_grow, I|].
    assert (C : cells (m_heap m ++ [l]) (mkS (length (m_heap m)) 0 (length l)) = l) by (unfold cells; cbn [s_arr]; rewrite app_nth2, Nat.sub_diag by lia; reflexivity).
    split; [split; [cbn [s_arr]; rewrite app_length; cbn [length]; lia|rewrite C; cbn [s_off s_len]; lia]|]. split; [unfold read; rewrite C; cbn [s_off s_len skipn]; apply firstn_all|].
    intros id d index E. left. cbn [s_arr]. destruct (iv_valid _ _ I (true, id) d E) as [[V _] _]. lia.
  - intros E. pose proof (iv_read _ _ I i) as R. rewrite E in R. destruct (at_slot (m_stmts m) i) as [sl|] eqn:Es; [|contradiction]. exists (m_heap m), sl. split; [reflexivity|].
    split; [destruct m; exact I|]. destruct (iv_valid _ _ I (true, i) sl Es) as [V O]. split; [exact V|]. split; [exact R|]. intros id d index Ed. destruct (Nat.eq_dec i id) as [->|N].
    + assert (sl = d) by congruence. subst. right. lia.
    + left. intros Q. apply N. pose proof (iv_inj _ _ I (true, i) (true, id) sl d Es Ed Q) as K. congruence.
  - destruct (nth_error (p_views p) n) as [[o v]|] eqn:Ev; [|discriminate]. intros ->.
    destruct (nth_error (m_views m) n) as [sl|] eqn:Es.
    2:{ exfalso. apply nth_error_None in Es. assert (n < length (p_views p))%nat by (apply nth_error_Some; congruence). pose proof (iv_nv _ _ I). lia. }
    exists (m_heap m), sl. split; [reflexivity|]. split; [destruct m; exact I|]. destruct (iv_view _ _ I n o xs sl Ev Es) as (V & R & P). split; [exact V|]. split; [exact R|].
    intros id d index Ed. destruct P as [P|(i & s & -> & Ei & Ea & Eo & El)]; [left; intros Q; apply (P (true, id) d Ed); auto|]. destruct (Nat.eq_dec i id) as [->|N].
    + assert (s = d) by congruence. subst. right. lia.
    + left. intros Q. apply N. pose proof (iv_inj _ _ I (true, i) (true, id) s d Ei Ed ltac:(congruence)). congruence.
Qed.
Lemma overwritten_at {A} (d s : list A) index i : (index <= length d)%nat ->
  nth_error (overwritten d s index) i = if (index <=? i)%nat && (i <? index + Nat.min (length d - index) (length s))%nat then nth_error s (i - index) else nth_error d i.
Proof.
  intros L. unfold overwritten. assert (FL : length (firstn (length d - index) s) = Nat.min (length d - index) (length s)) by apply firstn_length.
  destruct (Nat.leb_spec index i); cbn [andb].
  - rewrite nth_error_app2 by (rewrite firstn_length; lia). rewrite firstn_length, Nat.min_l by lia. destruct (Nat.ltb_spec i (index + Nat.min (length d - index) (length s))).
    + rewrite nth_error_app1 by lia. rewrite nth_error_firstn. destruct (Nat.ltb_spec (i - index) (length d - index)); [reflexivity|lia].
    + rewrite nth_error_app2 by lia. rewrite nth_error_skipn, FL. destruct (Nat.le_ge_cases (length s) (length d - index)).
      * f_equal. lia.
      * transitivity (@None A); [|symmetry]; apply nth_error_None; lia.
  - rewrite nth_error_app1 by (rewrite firstn_length; lia). rewrite nth_error_firstn. destruct (Nat.ltb_spec i index); [reflexivity|lia].
Qed.
Lemma inv_add {A} (m : mem A) p id s index g : inv m p -> legal p (MAdd id s index g) -> inv (mstep m (MAdd id s index g)) (pstep p (MAdd id s index g)).
Proof.
  intros I (Ls & d0 & Ed & Li). cbn [mstep pstep]. rewrite Ed. destruct (src_pure p s) as [xs|] eqn:Es; [|congruence]. destruct (inv_src m p s xs I Es) as (h & sl & -> & I1 & Vs & Rs & So).
  pose proof (iv_read _ _ I1 id) as R. rewrite Ed in R. cbn [m_stmts m_heap] in R. destruct (at_slot (m_stmts m) id) as [d|] eqn:Em; [|contradiction].
  destruct (iv_valid _ _ I1 (true, id) d Em) as [Vd Od]. cbn [m_heap] in Vd. assert (Ld : s_len d = length d0) by (rewrite <- R; symmetry; apply read_len, Vd).
  destruct (insert_mem g h d sl index) as [h' d'] eqn:Ei. destruct (insert_spec g h d sl index h' d' Vd Vs ltac:(lia) (So id d index Em) Ei) as (R' & V' & Len & Val & Apart & Pos).
  apply (inv_change (mkM h (m_stmts m) (m_pool m) (m_views m)) p id index d h' d' (spliced d0 xs index) I1 Em Val V'); cbn [m_heap].
  - destruct Pos as [[_ ->]|[_ ->]]; [exact Od|reflexivity].
  - destruct Pos as [[-> _]|[-> _]]; [left; reflexivity|right; lia].
  - assert (length (read h' d') = s_len d') as <- by (apply read_len, V'). rewrite R', R, Rs, Ld. unfold spliced. rewrite !app_length, firstn_length, skipn_length. lia.
  - rewrite R', R, Rs. reflexivity.
  - intros t Vt N. apply Apart; [exact Vt|]. rewrite Od. exact N.
Qed.
Lemma inv_over {A} (m : mem A) p id s index : inv m p -> legal p (MOver id s index) -> inv (mstep m (MOver id s index)) (pstep p (MOver id s index)).
Proof.
  intros I (Ls & d0 & Ed & Li). cbn [mstep pstep]. rewrite Ed. destruct (src_pure p s) as [xs|] eqn:Es; [|congruence]. destruct (inv_src m p s xs I Es) as (h & sl & -> & I1 & Vs & Rs & So).
  pose proof (iv_read _ _ I1 id) as R. rewrite Ed in R. cbn [m_stmts m_heap] in R. destruct (at_slot (m_stmts m) id) as [d|] eqn:Em; [|contradiction].
  destruct (iv_valid _ _ I1 (true, id) d Em) as [Vd Od]. cbn [m_heap] in Vd. assert (Ld : s_len d = length d0) by (rewrite <- R; symmetry; apply read_len, Vd).
  assert (Vf : valid h (from d index)) by (apply from_valid; [exact Vd|lia]).
  assert (Same : set_arr (m_stmts m) id (Some d) = m_stmts m).
  { apply list_ext. intros i. rewrite nth_error_set by (eapply at_slot_lt, Em). destruct (Nat.eqb_spec i id) as [->|]; [|reflexivity]. unfold at_slot in Em. destruct (nth_error (m_stmts m) id); congruence. }
  rewrite <- Same at 1.
  apply (inv_change (mkM h (m_stmts m) (m_pool m) (m_views m)) p id index d (go_copy h (from d index) sl) d (overwritten d0 xs index) I1 Em); cbn [m_heap]; auto.
  - intros t Vt. apply copy_valid; assumption.
  - apply copy_valid; assumption.
  - apply list_ext. intros i. rewrite overwritten_at by exact Li. destruct (Nat.ltb_spec i (s_len d)) as [K|K].
    + rewrite copy_read by (assumption || lia). rewrite Rs, R. assert (length xs = s_len sl) as -> by (rewrite <- Rs; apply read_len, Vs). rewrite Ld. reflexivity.
    + transitivity (@None (option A)); [|symmetry]. { apply nth_error_None. rewrite read_len by (apply copy_valid; assumption). exact K. }
      destruct (Nat.ltb_spec i (index + Nat.min (length d0 - index) (length xs))); [lia|]. rewrite andb_false_r. apply nth_error_None. lia.
  - intros t Vt N. apply copy_apart; [exact Vf|exact Vs|]. cbn [from s_arr s_off]. rewrite Od. exact N.
Qed.
Lemma inv_new {A} (m : mem A) p pick : inv m p -> inv (mstep m (MNew pick)) (pstep p (MNew pick)).
Proof.
  intros I. cbn [mstep pstep].
  assert (Fresh : forall m', inv m' p -> inv (mkM (m_heap m' ++ [[]]) (m_stmts m' ++ [Some (mkS (length (m_heap m')) 0 0)]) (m_pool m') (m_views m')) (mkP (p_stmts p ++ [Some []]) (p_views p))).
  { clear m I. intros m I. pose proof (inv_grow m p [] I) as I1. destruct I as [H1 H2 H3 H4 H5 H6 H8 H7]. destruct I1 as [G1 G2 G3 G4 G5 G6 G8 G7]. cbn [m_heap m_stmts m_pool m_views] in *.
    assert (Ho : forall a, holder (mkM (m_heap m ++ [[]]) (m_stmts m ++ [Some (mkS (length (m_heap m)) 0 0)]) (m_pool m) (m_views m)) a =
                 if fst a && (snd a =? length (m_stmts m))%nat then Some (mkS (length (m_heap m)) 0 0) else holder m a).
    { intros [[] i]; unfold holder; cbn [fst snd andb m_stmts m_pool]; [rewrite at_slot_app|]; reflexivity. }
    split; cbn [m_heap m_stmts m_pool m_views p_stmts p_views].
    - rewrite !app_length, H1. reflexivity.
    - exact H2.
    - intros a s. rewrite Ho. destruct (fst a && (snd a =? length (m_stmts m))%nat); [|apply G3]. intros [= <-]. split; [|reflexivity].
      split; cbn [s_arr s_off s_len]; [rewrite app_length; cbn [length]; lia|lia].
    - intros a b s t. rewrite !Ho. destruct (fst a && (snd a =? length (m_stmts m))%nat) eqn:Qa, (fst b && (snd b =? length (m_stmts m))%nat) eqn:Qb.
      + intros _ _ _. destruct a as [[] i], b as [[] j]; cbn [fst snd andb] in *; try discriminate. apply Nat.eqb_eq in Qa, Qb. congruence.
      + intros [= <-] Hb Q. exfalso. destruct (H3 b t Hb) as [[V _] _]. cbn [s_arr] in Q. lia.
      + intros Ha [= <-] Q. exfalso. destruct (H3 a s Ha) as [[V _] _]. cbn [s_arr] in Q. lia.
      + apply H4.
    - exact H5.
    - intros id. rewrite !at_slot_app, H1. destruct (Nat.eqb_spec id (length (p_stmts p))) as [->|N]; [|apply G6]. unfold read. cbn [s_len firstn]. reflexivity.
    - intros n o l E. rewrite app_length. pose proof (H8 n o l E). lia.
    - intros n o l v E1 E2. destruct (G7 n o l v E1 E2) as (V & R & P). split; [exact V|]. split; [exact R|]. destruct P as [P|(i & s & -> & Ei & Ea & Eo & El)].
      + left. intros a s. rewrite Ho. destruct (fst a && (snd a =? length (m_stmts m))%nat); [|apply P]. intros [= <-]. cbn [s_arr]. destruct (H7 n o l v E1 E2) as ([V0 _] & _). lia.
      + right. exists i, s. rewrite at_slot_app. destruct (Nat.eqb_spec i (length (m_stmts m))) as [->|]; [exfalso; apply at_slot_lt in Ei; lia|]. repeat split; auto. }
  destruct pick as [k|]; cbn [get_mem]; [|exact (Fresh m I)]. destruct (at_slot (m_pool m) k) as [s0|] eqn:Ek; [|exact (Fresh m I)]. cbn [m_heap m_stmts m_pool m_views].
  pose proof (at_slot_lt _ _ _ Ek) as Lk. destruct I as [H1 H2 H3 H4 H5 H6 H8 H7].
  assert (Ho : forall a s, holder (mkM (m_heap m) (m_stmts m ++ [Some s0]) (set_arr (m_pool m) k None) (m_views m)) a = Some s ->
               (a = (true, length (m_stmts m)) /\ s = s0) \/ (holder m a = Some s /\ a <> (false, k))).
  { intros [[] i] s; unfold holder; cbn [fst snd m_stmts m_pool]; [rewrite at_slot_app|rewrite at_slot_set by exact Lk].
    - destruct (Nat.eqb_spec i (length (m_stmts m))) as [->|]; [intros [= <-]; left; auto|]. intros E. right. split; [exact E|discriminate].
    - destruct (Nat.eqb_spec i k) as [->|N]; [discriminate|]. intros E. right. split; [exact E|congruence]. }
  split; cbn [m_heap m_stmts m_pool m_views p_stmts p_views].
  - rewrite !app_length, H1. reflexivity.
  - exact H2.
  - intros a s Ha. destruct (Ho a s Ha) as [[-> ->]|[E _]]; [apply (H3 (false, k) s0 Ek)|apply (H3 a s E)].
  - intros a b s t Ha Hb Q. destruct (Ho a s Ha) as [[-> ->]|[Ea Na]], (Ho b t Hb) as [[-> ->]|[Eb Nb]]; [reflexivity| | |apply (H4 a b s t Ea Eb Q)].
    + exfalso. apply Nb. symmetry. apply (H4 (false, k) b s0 t Ek Eb Q).
    + exfalso. apply Na. apply (H4 a (false, k) s s0 Ea Ek Q).
  - intros i s. rewrite at_slot_set by exact Lk. destruct (Nat.eqb_spec i k); [discriminate|apply H5].
  - intros id. rewrite !at_slot_app, H1. destruct (Nat.eqb_spec id (length (p_stmts p))) as [->|N]; [|apply H6]. unfold read. rewrite (H5 k s0 Ek). reflexivity.
  - intros n o l E. rewrite app_length. pose proof (H8 n o l E). lia.
  - intros n o l v E1 E2. destruct (H7 n o l v E1 E2) as (V & R & P). split; [exact V|]. split; [exact R|]. destruct P as [P|(i & s & -> & Ei & Ea & Eo & El)].
    + left. intros a s Ha. destruct (Ho a s Ha) as [[-> ->]|[E _]]; [apply (P (false, k) s0 Ek)|apply (P a s E)].
    + right. exists i, s. rewrite at_slot_app. destruct (Nat.eqb_spec i (length (m_stmts m))) as [->|]; [exfalso; apply at_slot_lt in Ei; lia|]. repeat split; auto.
Qed.
Lemma map_lose_new {A} (vs : list (option nat * option (list (option A)))) id index : (forall n o l, nth_error vs n = Some (Some o, l) -> (o < id)%nat) -> map (lose id index) vs = vs.
Proof.
  intros H. rewrite <- (map_id vs) at 2. apply map_ext_in. intros v Hin. destruct (In_nth_error _ _ Hin) as [n E]. destruct v as [[o|] [l|]]; cbn [lose]; try reflexivity. pose proof (H n o _ E). destruct (Nat.eqb_spec o id); [lia|reflexivity].
Qed.
Lemma inv_clone {A} (m : mem A) p id pick g : inv m p -> legal p (MClone id pick g) -> inv (mstep m (MClone id pick g)) (pstep p (MClone id pick g)).
Proof.
  intros I Lg. cbn [legal] in Lg. destruct (at_slot (p_stmts p) id) as [l|] eqn:Ep; [|congruence].
  pose proof (iv_read _ _ I id) as R. rewrite Ep in R. destruct (at_slot (m_stmts m) id) as [s|] eqn:Es; [|contradiction].
  pose proof (at_slot_lt _ _ _ Es) as Ls. pose proof (at_slot_lt _ _ _ Ep) as Lp.
  pose proof (inv_new m p pick I) as I1.
  pose proof (inv_add (mstep m (MNew pick)) (pstep p (MNew pick)) (length (m_stmts m)) (ArgsOf id) 0 g I1) as I2.
  assert (PP : pstep (pstep p (MNew pick)) (MAdd (length (m_stmts m)) (ArgsOf id) 0 g) = pstep p (MClone id pick g)).
  { cbn [pstep p_stmts p_views src_pure]. rewrite !at_slot_app, (iv_ns _ _ I), Nat.eqb_refl. destruct (Nat.eqb_spec id (length (p_stmts p))); [lia|]. rewrite Ep. rewrite set_arr_last. unfold spliced. cbn [firstn skipn app]. rewrite app_nil_r.
    rewrite map_lose_new; [reflexivity|apply (iv_owner _ _ I)]. }
  assert (MM : mstep (mstep m (MNew pick)) (MAdd (length (m_stmts m)) (ArgsOf id) 0 g) = mstep m (MClone id pick g)).
  { cbn [mstep]. rewrite Es. destruct (get_mem m pick) as [m1 d] eqn:Eg. assert (S1 : m_stmts m1 = m_stmts m) by (unfold get_mem in Eg; destruct pick as [k|]; [destruct (at_slot (m_pool m) k)|]; inversion Eg; reflexivity).
    cbn [src_mem m_heap m_stmts m_pool m_views]. rewrite S1, !at_slot_app, Nat.eqb_refl. destruct (Nat.eqb_spec id (length (m_stmts m))); [lia|]. rewrite Es. destruct (insert_mem g (m_heap m1) d s 0) as [h' d']. rewrite set_arr_last. reflexivity. }
  rewrite <- PP, <- MM. apply I2. cbn [legal src_pure pstep p_stmts]. rewrite !at_slot_app, (iv_ns _ _ I), Nat.eqb_refl. destruct (Nat.eqb_spec id (length (p_stmts p))); [lia|]. rewrite Ep. split; [discriminate|]. exists []. split; [reflexivity|lia].
Qed.
Lemma inv_close {A} (m : mem A) p id : inv m p -> legal p (MClose id) -> inv (mstep m (MClose id)) (pstep p (MClose id)).
Proof.
  intros I Lg. cbn [legal] in Lg. cbn [mstep pstep]. destruct (at_slot (p_stmts p) id) as [l|] eqn:Ep; [|congruence].
  pose proof (iv_read _ _ I id) as R. rewrite Ep in R. destruct (at_slot (m_stmts m) id) as [s0|] eqn:Es; [|contradiction].
  pose proof (at_slot_lt _ _ _ Es) as Ls. destruct I as [H1 H2 H3 H4 H5 H6 H8 H7]. destruct (H3 (true, id) s0 Es) as [[V1 V2] O0].
  assert (Fit : (s_off s0 + length (repeat (@None A) (s_len s0)) <= length (nth (s_arr s0) (m_heap m) []))%nat) by (rewrite repeat_length; exact V2).
  set (h' := store (m_heap m) (s_arr s0) (s_off s0) (repeat None (s_len s0))).
  assert (Val : forall s, valid (m_heap m) s -> valid h' s) by (intros s [W1 W2]; split; [unfold h'; rewrite store_len; exact W1|unfold h'; rewrite store_caps by assumption; exact W2]).
  assert (Oth : forall s, s_arr s <> s_arr s0 -> read h' s = read (m_heap m) s) by (intros s N; apply read_other; assumption).
  assert (Ho : forall a s, holder (mkM h' (set_arr (m_stmts m) id None) (m_pool m ++ [Some (mkS (s_arr s0) (s_off s0) 0)]) (m_views m)) a = Some s ->
               (a = (false, length (m_pool m)) /\ s = mkS (s_arr s0) (s_off s0) 0) \/ (holder m a = Some s /\ a <> (true, id))).
  { intros [[] i] s; unfold holder; cbn [fst snd m_stmts m_pool]; [rewrite at_slot_set by exact Ls|rewrite at_slot_app].
    - destruct (Nat.eqb_spec i id) as [->|N]; [discriminate|]. intros E. right. split; [exact E|congruence].
    - destruct (Nat.eqb_spec i (length (m_pool m))) as [->|]; [intros [= <-]; left; auto|]. intros E. right. split; [exact E|discriminate]. }
  assert (VP : valid h' (mkS (s_arr s0) (s_off s0) 0)).
  { apply Val. split; [exact V1|]. change (cells (m_heap m) (mkS (s_arr s0) (s_off s0) 0)) with (cells (m_heap m) s0). cbn [s_off s_len]. lia. }
  split; cbn [m_heap m_stmts m_pool m_views p_stmts p_views].
  - rewrite !set_arr_len. exact H1.
  - rewrite map_length. exact H2.
  - intros a s Ha. destruct (Ho a s Ha) as [[-> ->]|[E _]]; [split; [exact VP|exact O0]|]. destruct (H3 a s E). auto.
  - intros a b s t Ha Hb Q. destruct (Ho a s Ha) as [[-> ->]|[Ea Na]], (Ho b t Hb) as [[-> ->]|[Eb Nb]]; [reflexivity| | |apply (H4 a b s t Ea Eb Q)].
    + exfalso. apply Nb. symmetry. apply (H4 (true, id) b s0 t Es Eb Q).
    + exfalso. apply Na. apply (H4 a (true, id) s s0 Ea Es Q).
  - intros i s. rewrite at_slot_app. destruct (Nat.eqb_spec i (length (m_pool m))); [intros [= <-]; reflexivity|apply H5].
  - intros i. rewrite !at_slot_set by (rewrite <- ?H1; exact Ls). destruct (Nat.eqb_spec i id) as [->|N]; [exact Logic.I|]. specialize (H6 i). destruct (at_slot (p_stmts p) i), (at_slot (m_stmts m) i) as [s|] eqn:Ei; auto.
    rewrite Oth; [exact H6|]. intros Q. apply N. pose proof (H4 (true, i) (true, id) s s0 Ei Es Q). congruence.
  - intros n o l'. rewrite nth_error_map, set_arr_len. destruct (nth_error (p_views p) n) as [[o' v]|] eqn:Ev; cbn [option_map]; [|discriminate]. intros [= Q]. destruct o' as [o'|]; cbn [lose_all] in Q; [|discriminate].
    assert (o' = o) by (destruct (o' =? id)%nat; congruence). subst o'. eapply H8, Ev.
  - intros n o l' v. rewrite nth_error_map. destruct (nth_error (p_views p) n) as [w|] eqn:Ew; cbn [option_map]; [|discriminate]. intros [= Q] Ev.
    assert (W : w = (o, Some l') /\ o <> Some id).
    { destruct w as [[o'|] w]; cbn [lose_all] in Q; [|injection Q as <- ->; split; [reflexivity|discriminate]]. destruct (Nat.eqb_spec o' id); [discriminate|]. injection Q as <- ->. split; [reflexivity|congruence]. }
    destruct W as [-> No]. destruct (H7 n o l' v Ew Ev) as (V & Rv & P). split; [apply Val, V|].
    destruct P as [P|(i & s & -> & Ei & Ea & Eo & El)].
    + split; [rewrite Oth; [exact Rv|intros Q'; apply (P (true, id) s0 Es); auto]|]. left. intros a s Ha. destruct (Ho a s Ha) as [[-> ->]|[E _]]; [apply (P (true, id) s0 Es)|apply (P a s E)].
    + assert (N : i <> id) by congruence. assert (N1 : s_arr s <> s_arr s0) by (intros Q'; apply N; pose proof (H4 (true, i) (true, id) s s0 Ei Es Q'); congruence).
      split; [rewrite Oth; [exact Rv|congruence]|]. right. exists i, s. rewrite at_slot_set by exact Ls. destruct (Nat.eqb_spec i id); [contradiction|]. repeat split; auto.
Qed.
Lemma inv_step {A} (m : mem A) p o : inv m p -> legal p o -> inv (mstep m o) (pstep p o).
Proof.
  intros I Lg. destruct o; [apply inv_new, I| | |apply inv_add; assumption|apply inv_over; assumption|apply inv_clone; assumption|apply inv_close; assumption].
  - pose proof (inv_grow m p xs I) as I1. destruct I as [H1 H2 H3 H4 H5 H6 H8 H7]. destruct I1 as [G1 G2 G3 G4 G5 G6 G8 G7]. cbn [mstep pstep]. split; cbn [m_heap m_stmts m_pool m_views p_stmts p_views] in *; auto.
    + rewrite !app_length, H2. reflexivity.
    + intros n o l E. destruct (Nat.lt_ge_cases n (length (p_views p))); [rewrite nth_error_app1 in E by lia; eapply H8, E|]. rewrite nth_error_app2 in E by lia. destruct (n - length (p_views p))%nat as [|[|]]; cbn in E; discriminate.
    + intros n o l v E1 E2. destruct (Nat.lt_ge_cases n (length (p_views p))).
      * rewrite nth_error_app1 in E1 by lia. rewrite nth_error_app1 in E2 by lia. exact (G7 n o l v E1 E2).
      * rewrite nth_error_app2 in E1 by lia. rewrite nth_error_app2 in E2 by lia. rewrite H2 in E2. destruct (n - length (p_views p))%nat as [|[|]]; cbn [nth_error] in E1, E2; try discriminate. injection E1 as <- <-. injection E2 as <-.
        assert (C : cells (m_heap m ++ [xs]) (mkS (length (m_heap m)) 0 (length xs)) = xs) by (unfold cells; cbn [s_arr]; rewrite app_nth2, Nat.sub_diag by lia; reflexivity).
        split; [split; [cbn [s_arr]; rewrite app_length; cbn [length]; lia|rewrite C; cbn [s_off s_len]; lia]|]. split; [unfold read; rewrite C; cbn [s_off s_len skipn]; apply firstn_all|].
        left. intros a s Ha. cbn [s_arr]. destruct (H3 a s Ha) as [[V _] _]. lia.
  - cbn [legal] in Lg. cbn [mstep pstep]. destruct (at_slot (p_stmts p) id) as [l|] eqn:Ep; [|congruence]. pose proof (iv_read _ _ I id) as R. rewrite Ep in R. destruct (at_slot (m_stmts m) id) as [s|] eqn:Es; [|contradiction].
    pose proof (at_slot_lt _ _ _ Ep) as Lp. destruct I as [H1 H2 H3 H4 H5 H6 H8 H7]. split; cbn [m_heap m_stmts m_pool m_views p_stmts p_views]; auto.
    + rewrite !app_length, H2. reflexivity.
    + intros n o l' E. destruct (Nat.lt_ge_cases n (length (p_views p))); [rewrite nth_error_app1 in E by lia; eapply H8, E|]. rewrite nth_error_app2 in E by lia. destruct (n - length (p_views p))%nat as [|[|]]; cbn in E; try discriminate. injection E as <- _. exact Lp.
    + intros n o l' v E1 E2. destruct (Nat.lt_ge_cases n (length (p_views p))).
      * rewrite nth_error_app1 in E1 by lia. rewrite nth_error_app1 in E2 by lia. exact (H7 n o l' v E1 E2).
      * rewrite nth_error_app2 in E1 by lia. rewrite nth_error_app2 in E2 by lia. rewrite H2 in E2. destruct (n - length (p_views p))%nat as [|[|]]; cbn [nth_error] in E1, E2; try discriminate. injection E1 as <- <-. injection E2 as <-.
        destruct (H3 (true, id) s Es) as [V O]. split; [exact V|]. split; [exact R|]. right. exists id, s. repeat split; auto.
Qed.
Lemma inv_empty {A} : inv (mkM [] [] [] []) (@mkP A [] []).
Proof.
  assert (N : forall X i, @at_slot X [] i = None) by (intros X [|i]; reflexivity).
  split; cbn [m_heap m_stmts m_pool m_views p_stmts p_views]; auto.
  - intros [[] i] s; unfold holder; cbn [fst snd m_stmts m_pool]; rewrite N; discriminate.
  - intros [[] i] b s t; unfold holder; cbn [fst snd m_stmts m_pool]; rewrite N; discriminate.
  - intros k s. rewrite N. discriminate.
  - intros id. rewrite !N. exact Logic.I.
  - intros [|n] o l; discriminate.
  - intros [|n] o l v; discriminate.
Qed.
Theorem run_inv {A} (ops : list (mop A)) : all_legal (mkP [] []) ops -> inv (mrun ops) (prun ops).
Proof.
  unfold mrun, prun. generalize (@inv_empty A). generalize (@mkM A [] [] [] []) (@mkP A [] []). induction ops as [|o ops IH]; intros m p I L; [exact I|]. cbn [fold_left all_legal] in *. destruct L as [L1 L2]. apply IH; [apply inv_step; assumption|exact L2].
Qed.
