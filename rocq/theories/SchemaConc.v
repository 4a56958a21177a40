(** Several listings running at the same time on schema providers
    (schema/provider.go), one goroutine each.

    The provider keeps four Go maps (tables, columns, indexes, fkeys) that the
    listings fill without a lock.  A listing is a program of single accesses to
    them; the programs below follow provider.go statement by statement, and
    running one alone is proved to be the sequential model (SchemaModel) in
    SchemaConcProofs.  A Go map carries a flag that is set while an entry is
    being stored: an access that meets the flag ends the whole process with
    "fatal error: concurrent map writes" or "concurrent map read and map write"
    (runtime map code), which cannot be recovered.

    Simplified: testing and setting the flag is one step (on real hardware two
    stores may both pass the test, so more can go wrong than here); the answers
    of the database do not change while the listings run; withDependencies is
    left out (its first part is the listing below, after which it ranges over the
    same maps). *)
From Coq Require Import ZArith List Bool Lia Ascii String.
From Verif Require Import GoBase ParamModel SchemaModel.
Import ListNotations.
Open Scope Z_scope.

(** provider.go:30-33 the maps; [MHeap]: the Column objects the maps point to
    (not a map, no flag). *)
Inductive mid := MHeap | MTabs | MCols | MIdx | MFks.
Definition mid_eq (a b : mid) : bool :=
  match a, b with MHeap, MHeap | MTabs, MTabs | MCols, MCols | MIdx, MIdx | MFks, MFks => true | _, _ => false end.

(** One goroutine's remaining program; [R] is what it returns. *)
Inductive prog (R : Type) :=
| PRet (r : R)
| PNew (c : column) (k : nat -> prog R)            (* c := &Column{..} *)
| PPut (n : bytes) (id : nat) (k : prog R)         (* r.columns[n] = c *)
| PGet (n : bytes) (k : option nat -> prog R)      (* r.columns[n] *)
| PAdd (id : nat) (ix : index) (k : prog R)        (* col.Indexes = append(col.Indexes, idx) *)
| PPos (k : list column -> prog R)                 (* reading Position of the objects, to sort *)
| PIdx (n : bytes) (k : prog R)                    (* r.indexes[n] = c *)
| PTab (t : table) (k : prog R)                    (* r.tables[t.SchemaName] = t *)
| PFk (n : bytes) (f : fkey) (k : prog R).         (* r.fkeys[n] = k *)
Arguments PRet {R}. Arguments PNew {R}. Arguments PPut {R}. Arguments PGet {R}. Arguments PAdd {R}.
Arguments PPos {R}. Arguments PIdx {R}. Arguments PTab {R}. Arguments PFk {R}.

(** Sequencing. *)
Fixpoint pbind {A B} (p : prog A) (f : A -> prog B) : prog B :=
  match p with
  | PRet r => f r
  | PNew c k => PNew c (fun i => pbind (k i) f)
  | PPut n i k => PPut n i (pbind k f)
  | PGet n k => PGet n (fun o => pbind (k o) f)
  | PAdd i x k => PAdd i x (pbind k f)
  | PPos k => PPos (fun h => pbind (k h) f)
  | PIdx n k => PIdx n (pbind k f)
  | PTab t k => PTab t (pbind k f)
  | PFk n v k => PFk n v (pbind k f)
  end.

(** for rows.Next() { .. } and rows.Err() (as run_query of SchemaModel). *)
Fixpoint p_each {S R} (f : S -> R -> prog (S * outcome unit)) (s : S) (rows : list (scan R)) : prog (S * outcome unit) :=
  match rows with
  | [] => PRet (s, ROk tt)
  | SFail e :: _ => PRet (s, RErr e)
  | SPanic :: _ => PRet (s, RPanic)
  | SRow r :: rest => pbind (f s r) (fun x => match x with (s', ROk _) => p_each f s' rest | _ => PRet x end)
  end.
Definition p_query {S R} (f : S -> R -> prog (S * outcome unit)) (s : S) (q : rowsrc R + Z) : prog (S * outcome unit) :=
  match q with
  | inr e => PRet (s, RErr e)
  | inl src => pbind (p_each f s (src_rows src)) (fun x =>
      match x with (s', ROk _) => PRet (s', match src_err src with Some e => RErr e | None => ROk tt end) | _ => PRet x end)
  end.
(** What a loop collected, or its failure. *)
Definition collected {A B} (f : A -> B) (x : A * outcome unit) : outcome B :=
  match x with (a, ROk _) => ROk (f a) | (_, RErr e) => RErr e | (_, RPanic) => RPanic end.

(** provider.go:205-239 readColumnsSchema *)
Definition p_column_row (s t : bytes) (ids : list nat) (r : colrow) : prog (list nat * outcome unit) :=
  let c := make_column s t r in PNew c (fun id => PPut (c_fqn c) id (PRet (ids ++ [id], ROk tt))).
Definition p_columns (cat : catalog) (s t : bytes) : prog (outcome (list nat)) :=
  pbind (p_query (p_column_row s t) [] (cat_columns cat s t)) (fun x =>
    match x with
    | (ids, ROk _) => PPos (fun h => PRet (ROk (sort_by (by_pos h) ids)))
    | (_, RErr e) => PRet (RErr e)
    | (_, RPanic) => PRet RPanic
    end).
(** provider.go:241-276 readIndexesSchema *)
Definition p_indexes (cat : catalog) (s t : bytes) : prog (outcome (list index)) :=
  pbind (p_query (fun ii r => PIdx (fqn3 s t (ir_name r)) (PRet (ii ++ [make_index r], ROk tt))) [] (cat_indexes cat s t))
    (fun x => PRet (collected (fun ii => ii) x)).
(** provider.go:103-112 *)
Fixpoint p_attach_cols (tfqn : bytes) (ix : index) (names : list bytes) (pk : option nat) : prog (outcome (option nat)) :=
  match names with
  | [] => PRet (ROk pk)
  | cn :: r => PGet (tfqn ++ B "." ++ cn) (fun o =>
      match o with
      | None => PRet RPanic
      | Some id => PAdd id ix (p_attach_cols tfqn ix r (if ix_primary ix && (length (ix_cols ix) =? 1)%nat then Some id else pk))
      end)
  end.
Fixpoint p_attach (tfqn : bytes) (ii : list index) (pk : option nat) : prog (outcome (option nat)) :=
  match ii with
  | [] => PRet (ROk pk)
  | ix :: r => pbind (p_attach_cols tfqn ix (ix_cols ix) pk) (fun o => match o with ROk pk' => p_attach tfqn r pk' | x => PRet x end)
  end.
(** provider.go:75-115, the body of the loop of ListTables *)
Definition p_table_row (cat : catalog) (schemas tables : list bytes) (ts : list table) (r : tabrow) : prog (list table * outcome unit) :=
  if negb (wanted schemas tables (tr_schema r) (tr_name r)) then PRet (ts, ROk tt)
  else
    let fqn := fqn2 (tr_schema r) (tr_name r) in
    pbind (p_columns cat (tr_schema r) (tr_name r)) (fun oc =>
      match oc with
      | RErr e => PRet (ts, RErr e)
      | RPanic => PRet (ts, RPanic)
      | ROk cc =>
          pbind (p_indexes cat (tr_schema r) (tr_name r)) (fun oi =>
            match oi with
            | RErr e => PRet (ts, RErr e)
            | RPanic => PRet (ts, RPanic)
            | ROk ii =>
                pbind (p_attach fqn ii None) (fun op =>
                  match op with
                  | RErr e => PRet (ts, RErr e)
                  | RPanic => PRet (ts, RPanic)
                  | ROk pk =>
                      let t := mkTab (tr_schema r) (tr_name r) (tr_type r) false cc ii pk fqn in
                      PTab t (PRet (ts ++ [t], ROk tt))
                  end)
            end)
      end).
(** provider.go:67-134 ListTables without dependencies *)
Definition p_list_tables (cat : catalog) (schemas tables : list bytes) : prog (outcome (list table)) :=
  pbind (p_query (p_table_row cat schemas tables) [] (cat_tables cat)) (fun x => PRet (collected (sort_by by_name) x)).

(** provider.go:139-201 ListViews *)
Definition p_view_row (schemas tables : list bytes) (m : list (bytes * table)) (r : viewrow) : prog (list (bytes * table) * outcome unit) :=
  if negb (wanted schemas tables (vr_schema r) (vr_table r)) then PRet (m, ROk tt)
  else
    let c := make_column (vr_schema r) (vr_table r) (vr_col r) in
    PNew c (fun id => PPut (c_fqn c) id (
      let n := fqn2 (vr_schema r) (vr_table r) in
      let t := match mget n m with Some t => t | None => mkTab (vr_schema r) (vr_table r) [] true [] [] None n end in
      PRet (mput n (mkTab (t_schema t) (t_name t) (t_type t) (t_view t) (t_cols t ++ [id]) (t_idx t) (t_pk t) (t_fqn t)) m, ROk tt))).
Definition p_list_views (cat : catalog) (schemas tables : list bytes) (vord : list bytes) : prog (outcome (list table)) :=
  pbind (p_query (p_view_row schemas tables) [] (cat_views cat)) (fun x =>
    match x with
    | (m, ROk _) => PPos (fun h => PRet (ROk (sort_by by_name (map (sort_cols h) (mvalues vord m)))))
    | (_, RErr e) => PRet (RErr e)
    | (_, RPanic) => PRet RPanic
    end).

(** provider.go:281-322 ListForeignKeys *)
Definition p_fk_row (schemas tables : list bytes) (keys : list fkey) (k : fkey) : prog (list fkey * outcome unit) :=
  if negb (wanted schemas tables (k_schema k) (k_table k)) then PRet (keys, ROk tt)
  else PFk (fqn3 (k_schema k) (k_table k) (k_column k)) k (PRet (keys ++ [k], ROk tt)).
Definition p_list_fks (cat : catalog) (schemas tables : list bytes) : prog (outcome (list fkey)) :=
  pbind (p_query (p_fk_row schemas tables) [] (cat_fks cat)) (fun x => PRet (collected (fun ks => ks) x)).

(** A call and its answer.  [vord]: the order in which Go ranges over the map of
    views. *)
Inductive request := CallTables (schemas tables : list bytes) | CallViews (schemas tables vord : list bytes) | CallKeys (schemas tables : list bytes).
Inductive answer := GotTables (o : outcome (list table)) | GotKeys (o : outcome (list fkey)).
Definition p_request (cat : catalog) (q : request) : prog answer :=
  match q with
  | CallTables s t => pbind (p_list_tables cat s t) (fun o => PRet (GotTables o))
  | CallViews s t v => pbind (p_list_views cat s t v) (fun o => PRet (GotTables o))
  | CallKeys s t => pbind (p_list_fks cat s t) (fun o => PRet (GotKeys o))
  end.

(** The effect of the next access on the provider's memory, and what remains. *)
Definition paccess {R} (p : prog R) (st : prov) : prov * prog R :=
  match p with
  | PRet r => (st, p)
  | PNew c k => (mkP (p_heap st ++ [c]) (p_tabs st) (p_cols st) (p_fks st), k (length (p_heap st)))
  | PPut n i k => (mkP (p_heap st) (p_tabs st) (mput n i (p_cols st)) (p_fks st), k)
  | PGet n k => (st, k (mget n (p_cols st)))
  | PAdd i x k => (set_heap st (upd_heap (p_heap st) i (add_idx x)), k)
  | PPos k => (st, k (p_heap st))
  | PIdx n k => (st, k)
  | PTab t k => (put_table st t, k)
  | PFk n v k => (mkP (p_heap st) (p_tabs st) (p_cols st) (mput n v (p_fks st)), k)
  end.
(** Which map the next access stores into, or reads. *)
Definition stores {R} (p : prog R) : option mid :=
  match p with PPut _ _ _ => Some MCols | PIdx _ _ => Some MIdx | PTab _ _ => Some MTabs | PFk _ _ _ => Some MFks | _ => None end.
Definition looks {R} (p : prog R) : option mid := match p with PGet _ _ => Some MCols | _ => None end.

(** Running one program alone. *)
Fixpoint prun_alone {R} (p : prog R) (st : prov) : prov * R :=
  match p with
  | PRet r => (st, r)
  | PNew c k => prun_alone (k (length (p_heap st))) (mkP (p_heap st ++ [c]) (p_tabs st) (p_cols st) (p_fks st))
  | PPut n i k => prun_alone k (mkP (p_heap st) (p_tabs st) (mput n i (p_cols st)) (p_fks st))
  | PGet n k => prun_alone (k (mget n (p_cols st))) st
  | PAdd i x k => prun_alone k (set_heap st (upd_heap (p_heap st) i (add_idx x)))
  | PPos k => prun_alone (k (p_heap st)) st
  | PIdx n k => prun_alone k st
  | PTab t k => prun_alone k (put_table st t)
  | PFk n v k => prun_alone k (mkP (p_heap st) (p_tabs st) (p_cols st) (mput n v (p_fks st)))
  end.

(** ** Goroutines.  [g_mid]: in the middle of a store. *)
Record gor := mkG { g_prov : nat; g_mid : bool; g_prog : prog answer }.
Record world := mkW { w_mem : nat -> prov; w_flag : nat -> mid -> bool; w_gs : list gor }.
Definition upd1 {A} (f : nat -> A) (i : nat) (v : A) : nat -> A := fun j => if (j =? i)%nat then v else f j.
Definition upd2 (f : nat -> mid -> bool) (i : nat) (m : mid) (v : bool) : nat -> mid -> bool :=
  fun j n => if (j =? i)%nat && mid_eq n m then v else f j n.
Definition set_gor (gs : list gor) (i : nat) (g : gor) : list gor := firstn i gs ++ g :: skipn (S i) gs.
(** One step of goroutine [i]; None: the Go runtime ends the process. *)
Definition wstep (w : world) (i : nat) : option world :=
  match nth_error (w_gs w) i with
  | None => Some w
  | Some g =>
      let pv := g_prov g in
      let finish := let '(st', k) := paccess (g_prog g) (w_mem w pv) in (upd1 (w_mem w) pv st', mkG pv false k) in
      match stores (g_prog g) with
      | Some m =>
          if g_mid g then Some (mkW (fst finish) (upd2 (w_flag w) pv m false) (set_gor (w_gs w) i (snd finish)))
          else if w_flag w pv m then None
          else Some (mkW (w_mem w) (upd2 (w_flag w) pv m true) (set_gor (w_gs w) i (mkG pv true (g_prog g))))
      | None =>
          match looks (g_prog g) with
          | Some m => if w_flag w pv m then None else Some (mkW (fst finish) (w_flag w) (set_gor (w_gs w) i (snd finish)))
          | None => Some (mkW (fst finish) (w_flag w) (set_gor (w_gs w) i (snd finish)))
          end
      end
  end.
Fixpoint wrun (w : world) (sched : list nat) : option world :=
  match sched with [] => Some w | i :: r => match wstep w i with Some w' => wrun w' r | None => None end end.
(** One goroutine per call; [calls]: the provider it uses and the request. *)
Definition wstart (cat : catalog) (mem : nat -> prov) (calls : list (nat * request)) : world :=
  mkW mem (fun _ _ => false) (map (fun x => mkG (fst x) false (p_request cat (snd x))) calls).
(** The answer of call [i], once it has returned. *)
Definition returned (w : world) (i : nat) : option answer :=
  match nth_error (w_gs w) i with Some (mkG _ _ (PRet r)) => Some r | _ => None end.

(** The same call on its own (SchemaModel). *)
Definition alone (cat : catalog) (q : request) (st : prov) : answer :=
  match q with
  | CallTables s t => GotTables (snd (list_tables cat st s t))
  | CallViews s t v => GotTables (snd (list_views cat st s t v))
  | CallKeys s t => GotKeys (snd (list_fks cat st s t))
  end.
