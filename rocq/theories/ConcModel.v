(** Goroutines that share a dialect's cache of texts, or a lazily cached string.
    sync.Map operations are atomic; everything else a goroutine does with its own
    statement is private to it, so a step is one Load or one Store. *)
From Verif Require Import GoBase XsqlModel.
Open Scope Z_scope.

(** ** String() and GetOrCreateQuery in goroutines *)
(** stmt.go:910-944 String of a statement owned by the goroutine; cache.go:23-30
    GetOrCreateQuery, whose callback returns [c]. *)
Inductive task := TString (q : stmt) | TGet (name : bytes) (c : stmt).
(** Where a goroutine is: before its first Load, before the Load of String()
    inside GetOrCreateQuery (the callback was called), before the Store of [s],
    or finished ([None]: String panicked). *)
Inductive tstate := TBegin | TCalled | TStore (s : bytes) | TDone (r : option bytes).
(** The Load of String() (stmt.go:911-919) and the building of the text
    (stmt.go:920-938). *)
Definition load_step (d : dialect) (q : stmt) : tstate :=
  if is_empty (st_sql q) then
    match get_cached d (cache_key q) with
    | Some s => TDone (Some s)
    | None => match render (is_pg d) q with None => TDone None | Some s => TStore s end
    end
  else TDone (Some (st_sql q)).
(** The statement on which String() is called. *)
Definition own_stmt (t : task) : stmt := match t with TString q => q | TGet n c => set_name c n end.
Definition tstep (d : dialect) (t : task) (x : tstate) : dialect * tstate :=
  match x with
  | TBegin => match t with
              | TString q => (d, load_step d q)
              | TGet n _ => (d, match get_cached d n with Some s => TDone (Some s) | None => TCalled end)
              end
  | TCalled => (d, load_step d (own_stmt t))
  | TStore s => (put_cached d (cache_key (own_stmt t)) s, TDone (Some s))
  | TDone r => (d, TDone r)
  end.
(** All goroutines: their tasks and where they are. *)
Definition pool := list (task * tstate).
Fixpoint pstep (d : dialect) (p : pool) (i : nat) : dialect * pool :=
  match p, i with
  | [], _ => (d, [])
  | (t, x) :: r, O => let '(d', x') := tstep d t x in (d', (t, x') :: r)
  | a :: r, S i => let '(d', r') := pstep d r i in (d', a :: r')
  end.
(** A schedule: which goroutine does the next step. *)
Fixpoint prun (d : dialect) (p : pool) (sched : list nat) : dialect * pool :=
  match sched with [] => (d, p) | i :: r => let '(d', p') := pstep d p i in prun d' p' r end.
Definition start (ts : list task) : pool := map (fun t => (t, TBegin)) ts.

(** ** A lazily cached string *)
(** schema.go:78-83 AllColumns and id.go:427-435 String of an ID: if the cached
    string is empty compute it and store it, then return the cached string,
    without synchronisation.  A string is two words, pointer and length; by the
    Go memory model a racing read may see the words of different writes, and the
    words may be written and read in either order.  [m_ptr = None] is the nil
    pointer; every writer stores a text with the same bytes. *)
Record smem := mkM { m_ptr : option bytes; m_len : nat }.
Definition s_init : smem := mkM None 0.
Inductive rstate :=
| RCheck                                    (* before: if str == "" *)
| RStore (ptr_first : bool)                 (* before the first word is written *)
| RStore2 (ptr_first : bool)                (* before the second *)
| RRead                                     (* before: return str *)
| RRead2 (p : option (option bytes)) (n : option nat)  (* one word has been read *)
| RGot (p : option bytes) (n : nat).        (* returned *)
(** One step of a call; [b] resolves the choice of the order. *)
Definition rstep (text : bytes) (m : smem) (x : rstate) (b : bool) : smem * rstate :=
  match x with
  | RCheck => (m, if (m_len m =? 0)%nat then RStore b else RRead)
  | RStore true => (mkM (Some text) (m_len m), RStore2 true)
  | RStore false => (mkM (m_ptr m) (length text), RStore2 false)
  | RStore2 true => (mkM (m_ptr m) (length text), RRead)
  | RStore2 false => (mkM (Some text) (m_len m), RRead)
  | RRead => (m, if b then RRead2 (Some (m_ptr m)) None else RRead2 None (Some (m_len m)))
  | RRead2 (Some p) _ => (m, RGot p (m_len m))
  | RRead2 None (Some n) => (m, RGot (m_ptr m) n)
  | RRead2 None None => (m, RRead)
  | RGot p n => (m, RGot p n)
  end.
(** What a returned string is when used: [None] is a read at the nil pointer. *)
Definition s_value (p : option bytes) (n : nat) : option bytes :=
  match p, n with _, O => Some [] | Some t, _ => Some (firstn n t) | None, _ => None end.
Fixpoint rpstep (text : bytes) (m : smem) (p : list rstate) (i : nat) (b : bool) : smem * list rstate :=
  match p, i with
  | [], _ => (m, [])
  | x :: r, O => let '(m', x') := rstep text m x b in (m', x' :: r)
  | x :: r, S i => let '(m', r') := rpstep text m r i b in (m', x :: r')
  end.
Fixpoint rprun (text : bytes) (m : smem) (p : list rstate) (sched : list (nat * bool)) : smem * list rstate :=
  match sched with [] => (m, p) | (i, b) :: r => let '(m', p') := rpstep text m p i b in rprun text m' p' r end.
