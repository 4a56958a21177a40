(** Small parts of the API: BeginTx options (prov.go), PageParam and GetQueryParams
    (params.go), Int32Array (id.go), String and QuotedString of pointers (types.go),
    the keys and ranges of Metadata (types.go). *)
From Verif Require Import GoBase IdModel TypeModel.
Open Scope Z_scope.

(** ** Transactions with options *)
(** sql.TxOptions: the isolation level (0: default) and ReadOnly *)
Record txopts := mkOpts { tx_iso : Z; tx_ro : bool }.
Definition default_opts : txopts := mkOpts 0 false.
(** database/sql: nil options are the default ones; the driver gets them, or
    refuses a level it does not support. *)
Definition sql_begin (supported : txopts -> bool) (o : option txopts) : list txopts * bool :=
  let o := match o with None => default_opts | Some x => x end in ([o], supported o).
(** prov.go:85-103 BeginTx: what the driver is asked for, and whether a
    transaction was started; [in_tx] tells whether the provider is one. *)
Definition begin_tx (supported : txopts -> bool) (in_tx : bool) (o : option txopts) : list txopts * bool :=
  if in_tx then ([], false) else sql_begin supported None.

(** ** id.go:445-456 *)
(** Int32Array of a slice of enums; the elements are int32 or uint32 values *)
Definition int32_array (l : list Z) : list Z := map i32 l.

(** ** types.go:104-118 *)
Definition string_ptr (p : option bytes) : bytes := match p with None => [] | Some s => s end.
Definition quoted_ptr (p : option bytes) : bytes := match p with None => [] | Some s => [dquote] ++ s ++ [dquote] end.
(** types.go:78-84 Validate: the model's own answer if it has a Validate method *)
Definition validate {E} (m : option (option E)) : option E := match m with Some e => e | None => None end.
(** types.go:86-93 NullTime of a pointer: (time, valid) *)
Definition null_time {T} (z : T) (p : option T) : T * bool := match p with None => (z, false) | Some t => (t, true) end.

(** ** Metadata: types.go:171-197 *)
(** maps.Keys of a map iterated in [order] (any permutation of its entries) *)
Definition meta_keys {V} (order : gmap V) : option (list bytes) := match order with None => None | Some l => Some (map fst l) end.
(** maps.Range and maps.OrderedRange (github.com/effective-security/x): calls f
    on the entries until it returns false.  f is a state machine: its state,
    the entry, the next state and its answer. *)
Fixpoint range_until {S V} (f : S -> bytes -> V -> S * bool) (s : S) (l : list (bytes * V)) : S * list (bytes * V) :=
  match l with
  | [] => (s, [])
  | (k, v) :: r => let '(s1, go) := f s k v in
                   if go then let '(s2, t) := range_until f s1 r in (s2, (k, v) :: t) else (s1, [(k, v)])
  end.
Definition meta_range {S V} (f : S -> bytes -> V -> S * bool) (s : S) (order : gmap V) : S * list (bytes * V) := range_until f s (entries order).
Definition sorted_entries {V} (m : gmap V) : list (bytes * V) := flat_map (fun k => match mget m k with Some v => [(k, v)] | None => [] end) (ordered_keys m).
Definition meta_range_ordered {S V} (f : S -> bytes -> V -> S * bool) (s : S) (m : gmap V) : S * list (bytes * V) := range_until f s (sorted_entries m).
