(** Model of the SQL value types of /repo/types.go and ID32 of /repo/id.go, of
    the not-found errors of types.go and of Merge (/repo/merge.go).
    A method on a pointer receiver takes the old content of the destination and
    returns (new content, ok); [ok = false] is a non-nil error. *)
From Verif Require Import GoBase IdModel.
From Verif Require Export FloatModel.
Open Scope Z_scope.

(** ** JSON of the number types *)
(** The common shape of UnmarshalJSON: strip quotes, "", "0" and "NULL" are
    zero, else parse (types.go:392-405, 467-480; id.go:359-372). *)
Definition num_unjson (parse : bytes -> option Z) (old : Z) (data : bytes) : Z * bool :=
  let s := trim [dquote] data in
  if is_empty s || beqb s (B "0") || beqb s (B "NULL") then (0, true)
  else match parse s with None => (old, false) | Some f => (f, true) end.
(** types.go:387-389, 408-415 Int64 MarshalJSON, String, QuotedString *)
Definition int64_json (v : Z) : bytes := fmt_int 10 v.
Definition int64_quoted (v : Z) : bytes := [dquote] ++ fmt_int 10 v ++ [dquote].
(** types.go:392-405 *)
Definition int64_unjson : Z -> bytes -> Z * bool := num_unjson (parse_int 64).
(** types.go:462-464, 482-484 Int32 MarshalJSON, String *)
Definition int32_json (v : Z) : bytes := fmt_int 10 v.
(** types.go:467-480 *)
Definition int32_unjson : Z -> bytes -> Z * bool := num_unjson (parse_int 32).
(** id.go:354-356, 374-376 ID32 MarshalJSON, String *)
Definition id32_json (v : Z) : bytes := fmt_uint 10 v.
(** id.go:359-372 *)
Definition id32_unjson : Z -> bytes -> Z * bool := num_unjson (parse_uint 32).
(** types.go:616-618, 632-634 Bool MarshalJSON, String *)
Definition bool_json (v : bool) : bytes := if v then B "true" else B "false".
(** types.go:621-629 *)
Definition bool_unjson (old : bool) (data : bytes) : bool * bool :=
  let s := trim [dquote] data in (beqb s (B "true") || beqb s (B "1") || beqb s (B "TRUE"), true).

(** ** Scan and Value *)
(** types.go:423-444 Int64.Scan, 447-456 Value *)
Definition int64_scan (old : Z) (x : goany) : Z * bool :=
  match x with
  | ANil => (old, true)
  | AUint64 n | AUint n => (i64 n, true)
  | AInt64 n | AInt n => (n, true)
  | _ => (old, false)
  end.
Definition int_value (v : Z) : goany := if v =? 0 then ANil else AInt64 v.
Definition int64_value : Z -> goany := int_value.
(** types.go:497-518 Int32.Scan, 521-530 Value *)
Definition int32_scan (old : Z) (x : goany) : Z * bool :=
  match x with
  | ANil => (old, true)
  | AUint64 n | AUint n => (i32 (i64 n), true)
  | AInt64 n | AInt n => (i32 n, true)
  | _ => (old, false)
  end.
Definition int32_value : Z -> goany := int_value.
(** id.go:379-400 ID32.Scan, 403-412 Value *)
Definition id32_scan (old : Z) (x : goany) : Z * bool :=
  match x with
  | ANil => (old, true)
  | AUint64 n | AUint n => (u32 n, true)
  | AInt64 n | AInt n => (u32 (u64 n), true)
  | _ => (old, false)
  end.
Definition id32_value : Z -> goany := int_value.
(** types.go:642-665 Bool.Scan, 668-675 Value *)
Definition bool_scan (old : bool) (x : goany) : bool * bool :=
  match x with
  | ANil => (old, true)
  | AUint64 n | AUint n | AInt64 n | AInt n => (0 <? n, true)
  | ABool b => (b, true)
  | _ => (old, false)
  end.
Definition bool_value (v : bool) : goany := if v then ABool true else ANil.

(** ** NULLString and UUID *)
(** database/sql convertAssign into a *string for the driver values used;
    [show] stands for the text of the remaining kinds (floats, opaque). *)
Definition as_string (show : goany -> bytes) (x : goany) : bytes :=
  match x with
  | AStr s | ABytes s => s
  | AInt n | AInt64 n => fmt_int 10 n
  | AUint n | AUint64 n | AUint32 n => fmt_uint 10 n
  | ABool b => if b then B "true" else B "false"
  | _ => show x
  end.
(** types.go:319-331 NULLString.Scan (through sql.NullString.Scan), 334-339 Value *)
Definition nullstring_scan (show : goany -> bytes) (old : bytes) (x : goany) : bytes * bool :=
  match x with ANil => ([], true) | _ => (as_string show x, true) end.
Definition nullstring_value (v : bytes) : goany := if is_empty v then ANil else AStr v.
(** types.go:363-364: the Sprintf of the 16 bytes. *)
Definition hexat (b : bytes) (is : list nat) : bytes := flat_map (fun i => hex_byte (nth i b zero)) is.
Definition uuid_text (b : bytes) : bytes :=
  hexat b [3; 2; 1; 0]%nat ++ B "-" ++ hexat b [5; 4]%nat ++ B "-" ++ hexat b [7; 6]%nat ++ B "-" ++
  hexat b [8; 9]%nat ++ B "-" ++ hexat b [10; 11; 12; 13; 14; 15]%nat.
(** types.go:350-373 UUID.Scan.  Line 361 returns errors.WithMessagef(err, ...)
    with err = nil, which is nil: no error and the destination unchanged.
    types.go:376-381 Value *)
Definition uuid_scan (old : bytes) (x : goany) : bytes * bool :=
  match x with
  | ANil => ([], true)
  | ABytes b => if (length b =? 16)%nat then (uuid_text b, true) else (old, true)
  | AStr s => (s, true)
  | _ => (old, false)
  end.
Definition uuid_value : bytes -> goany := nullstring_value.

(** ** Metadata and KVSet *)
(** A Go map with keys of type string: an association list, the first entry of
    a key counts; [None] is the nil map.  Two maps are the same when all lookups
    agree.  [V] is string (Metadata) or []string (KVSet). *)
Definition gmap (V : Type) := option (list (bytes * V)).
Fixpoint assoc {V} (k : bytes) (l : list (bytes * V)) : option V :=
  match l with
  | [] => None
  | (j, v) :: r => if beqb j k then Some v else assoc k r
  end.
Definition entries {V} (m : gmap V) : list (bytes * V) := match m with None => [] | Some l => l end.
Definition mget {V} (m : gmap V) (k : bytes) : option V := assoc k (entries m).
(** tm[k] = v *)
Fixpoint put {V} (k : bytes) (v : V) (l : list (bytes * V)) : list (bytes * V) :=
  match l with
  | [] => [(k, v)]
  | (j, w) :: r => if beqb j k then (j, v) :: r else (j, w) :: put k v r
  end.
(** types.go:213-222, 264-272 Merge.  [order] is the iteration order of the map
    [m], any permutation of its entries. *)
Definition merge_in {V} (n : gmap V) (order : list (bytes * V)) : gmap V :=
  Some (fold_left (fun acc kv => put (fst kv) (snd kv) acc) order (entries n)).

(** Go compares strings byte by byte. *)
Fixpoint bltb (a b : bytes) : bool :=
  match a, b with
  | _, [] => false
  | [], _ :: _ => true
  | x :: a', y :: b' => if (nat_of_ascii x <? nat_of_ascii y)%nat then true
                        else if (nat_of_ascii y <? nat_of_ascii x)%nat then false else bltb a' b'
  end.
(** maps.OrderedKeys (effective-security/x): the keys sorted. *)
Fixpoint insert_key (k : bytes) (l : list bytes) : list bytes :=
  match l with
  | [] => [k]
  | j :: r => if bltb j k then j :: insert_key k r else k :: l
  end.
Definition ordered_keys {V} (m : gmap V) : list bytes :=
  fold_right insert_key [] (map fst (entries m)).
(** types.go:200-210 OrderedPairs (through RangeOrdered, 192-197).  maps.OrderedRange
    visits the sorted keys with their values. *)
Definition ordered_pairs (m : gmap bytes) : list bytes :=
  flat_map (fun k => [k; match mget m k with Some v => v | None => [] end]) (ordered_keys m).

(** Maps are references: variables hold addresses into a heap of maps. *)
Definition mheap (V : Type) := list (list (bytes * V)).
(** types.go:213-222 with [n] and [m] map variables. *)
Definition merge_heap {V} (h : mheap V) (n m : option nat) (order : list (bytes * V)) : mheap V * option nat :=
  match n with
  | None => (h ++ [fold_left (fun acc kv => put (fst kv) (snd kv) acc) order []], Some (length h))
  | Some a => (upd h a (fold_left (fun acc kv => put (fst kv) (snd kv) acc) order (nth a h [])), Some a)
  end.

(** ** Not-found errors *)
(** Error values: [ELeaf ty msg] an error without a cause, of dynamic type
    number [ty]; [ENotFound table id err] the ErrorNotFound of types.go:24-28;
    [EStack e] errors.WithStack(e), which prints as [e]; [EWrap msg e] any other
    wrapper, printing [msg]. *)
Inductive err : Type :=
| ELeaf (ty : nat) (msg : bytes)
| ENotFound (table id : bytes) (cause : option err)
| EStack (e : err)
| EWrap (msg : bytes) (e : err).
(** sql.ErrNoRows: errors.New("sql: no rows in result set"); type 0 is
    *errors.errorString. *)
Definition no_rows : err := ELeaf 0 (B "sql: no rows in result set").
(** types.go:30-32 Error() *)
Fixpoint err_text (e : err) : bytes :=
  match e with
  | ELeaf _ m => m
  | ENotFound t i _ => B "record not found: " ++ t ++ B ": " ++ i
  | EStack e => err_text e
  | EWrap m _ => m
  end.
(** errbase.UnwrapOnce, types.go:43-45 *)
Fixpoint chain (e : err) : list err :=
  e :: match e with
       | ELeaf _ _ => []
       | ENotFound _ _ None => []
       | ENotFound _ _ (Some c) => chain c
       | EStack c => chain c
       | EWrap _ c => chain c
       end.
(** errors.Is(err, sql.ErrNoRows): pointer identity or, in cockroachdb/errors,
    the same mark (type and message); the two coincide here. *)
Definition is_no_rows (e : err) : bool :=
  existsb (fun c => match c with ELeaf O m => beqb m (B "sql: no rows in result set") | _ => false end) (chain e).
(** errors.As(err, *ErrorNotFound) *)
Definition as_not_found (e : err) : bool :=
  existsb (fun c => match c with ENotFound _ _ _ => true | _ => false end) (chain e).
(** types.go:35-41 (ErrorNotFound).Is *)
Definition not_found_is (e target : err) : bool :=
  match e, target with ENotFound t i _, ENotFound t' i' _ => beqb t t' && beqb i i' | _, _ => false end.
(** Go's errors.Is(err, target) for a *ErrorNotFound target that is not itself
    in the chain. *)
Definition std_is (e target : err) : bool := existsb (fun c => not_found_is c target) (chain e).
(** cockroachdb/errors.Is additionally compares marks: the message and the
    types along the chain. *)
Definition err_type (e : err) : nat :=
  match e with ELeaf t _ => 4 + t | ENotFound _ _ _ => 1 | EStack _ => 2 | EWrap _ _ => 3 end%nat.
Definition same_mark (a b : err) : bool :=
  beqb (err_text a) (err_text b) && (if list_eq_dec Nat.eq_dec (map err_type (chain a)) (map err_type (chain b)) then true else false).
Definition crdb_is (e target : err) : bool :=
  std_is e target || existsb (fun c => same_mark c target) (chain e).

Definition no_rows_text : bytes := B "no rows in result set".
(** types.go:47-62 NewErrorNotFound; [id] is already rendered. *)
Definition new_not_found (e : option err) (table id : bytes) : err := ENotFound table id e.
(** types.go:64-70 CheckNotFoundError *)
Definition check_not_found (e : option err) (table id : bytes) : option err :=
  match e with
  | None => None
  | Some x => if is_no_rows x || contains no_rows_text (err_text x)
              then Some (EStack (new_not_found e table id)) else Some (EStack x)
  end.
(** types.go:678-701 IsNotFoundError *)
Definition is_not_found (e : option err) : bool :=
  match e with
  | None => false
  | Some x => is_no_rows x || as_not_found x || contains no_rows_text (err_text x)
  end.

(** ** Merge *)
(** A struct as its list of fields.  Time is its instant in nanoseconds since
    year 1 (0 is the zero time); FPlain stands for fields of ordinary comparable
    kinds (by number, 0 is the zero value). *)
Inductive field : Type := FTime (t : Z) | FId (v : idc) | FNStr (s : bytes) | FPlain (z : Z).
(** merge.go:18-54 transformers, and mergo.WithOverride for other fields. *)
Definition merge_field (dst src : field) : field :=
  match src with
  | FTime t => if t =? 0 then dst else src
  | FId v => if id_valid v then src else dst
  | FNStr s => if is_empty s then dst else src
  | FPlain z => if z =? 0 then dst else src
  end.
(** merge.go:60-62 Merge, on structs of the same type. *)
Fixpoint merge_struct (dst src : list field) : list field :=
  match dst, src with
  | d :: ds, s :: ss => merge_field d s :: merge_struct ds ss
  | _, _ => dst
  end.
