(** Model of /repo/id.go (ID, IDArray) and the ID helpers of /repo/types.go.
    An ID is a pointer to a cell (id, str).  The functions below first give each
    method's effect on the cell (content [idc]); the heap section then says which
    methods write the cell in place and which allocate a new one, so aliasing of
    copies is visible.  All uint64 are integers in [0, 2^64).  Errors are
    modelled by [None] (their text is not modelled). *)
From Verif Require Import GoBase.
Open Scope Z_scope.

(** types.go:121-127 ParseUint (strconv.ParseUint(id, 10, 64)). *)
Definition go_parse_uint (s : bytes) : option Z := parse_uint 64 s.
(** types.go:130-132 IDString *)
Definition id_string_of (n : Z) : bytes := fmt_uint 10 n.
(** types.go:135-137 QuotedIDString *)
Definition dquote : ascii := ascii_of_nat 34.
Definition quoted_id_string (n : Z) : bytes := [dquote] ++ fmt_uint 10 n ++ [dquote].

(** id.go:414-417 idptr *)
Record idptr := mkIdptr { ip_id : Z; ip_str : bytes }.
(** id.go:14-16 ID, by the content of the cell it points to; [None] is a nil
    pointer. *)
Definition idc := option idptr.

(** id.go:419-424 idptr.val; also ID.UInt64 (id.go:118-120). *)
Definition id_val (v : idc) : Z := match v with None => 0 | Some p => ip_id p end.
(** id.go:103-115 Invalid, IsZero, Valid *)
Definition id_invalid (v : idc) : bool := id_val v =? 0.
Definition id_valid (v : idc) : bool := negb (id_val v =? 0).

(** id.go:426-434 idptr.String, also ID.String (id.go:83-85): the text and
    the cell afterwards (the text is cached). *)
Definition id_string (v : idc) : bytes * idc :=
  match v with
  | None => ([], None)
  | Some p => let s := if negb (ip_id p =? 0) && is_empty (ip_str p) then id_string_of (ip_id p) else ip_str p in
              (s, Some (mkIdptr (ip_id p) s))
  end.
(** id.go:89-95 UnderscoreString *)
Definition id_underscore (v : idc) : bytes :=
  let s := fst (id_string v) in if is_empty s then [] else ascii_of_nat 95 :: s.
(** id.go:437-442, 98-100 QuotedString *)
Definition id_quoted (v : idc) : bytes :=
  match v with None => [] | Some _ => [dquote] ++ fst (id_string v) ++ [dquote] end.

(** id.go:19-25 NewID *)
Definition id_new (n : Z) : idc := if 0 <? n then Some (mkIdptr n []) else None.

(** id.go:133-149 Set: (new content, ok). *)
Definition id_set (v : idc) (s : bytes) : idc * bool :=
  if is_empty s || beqb s (B "0") then (v, false)
  else match go_parse_uint s with
       | None => (v, false)
       | Some n => if n =? 0 then (v, false) else (Some (mkIdptr n []), true)
       end.
(** id.go:123-130 Reset *)
Definition id_reset (v : idc) : idc := Some (mkIdptr 0 []).
(** id.go:28-34 MustID: None is a panic. *)
Definition must_id (s : bytes) : option idc :=
  match id_set None s with (v, true) => Some v | (_, false) => None end.
(** id.go:37-40 ParseID: [return id, id.Set(val)].  The Go specification does
    not say whether the operand [id] is read before or after the call;
    [early] chooses.  The gc compiler reads it after the call. *)
Definition parse_id_order (early : bool) (s : bytes) : idc * bool :=
  let '(v, ok) := id_set None s in ((if early then None else v), ok).
Definition parse_id : bytes -> idc * bool := parse_id_order false.
(** id.go:43-47 TryParseID *)
Definition try_parse_id (s : bytes) : idc := fst (id_set None s).

(** id.go:50-52 MarshalJSON *)
Definition id_json (v : idc) : bytes := fmt_uint 10 (id_val v).
(** id.go:55-68 UnmarshalJSON *)
Definition id_unjson (v : idc) (data : bytes) : idc * bool :=
  let s := trim [dquote] data in
  if is_empty s || beqb s (B "0") then (id_new 0, true)
  else match go_parse_uint s with
       | None => (v, false)
       | Some f => (Some (mkIdptr f s), true)
       end.
(** id.go:70-72 MarshalYAML; 74-81 UnmarshalYAML: [r] is what the YAML decoder
    stores in a uint64, or its failure. *)
Definition id_yaml (v : idc) : Z := id_val v.
Definition id_unyaml (v : idc) (r : option Z) : idc * bool :=
  match r with None => (v, false) | Some n => (id_new n, true) end.

(** id.go:152-174 Scan *)
Definition id_scan (v : idc) (x : goany) : idc * bool :=
  match x with
  | ANil => (v, true)
  | AUint64 n | AUint n => (id_new n, true)
  | AInt64 n | AInt n => (id_new (u64 n), true)
  | _ => (v, false)
  end.
(** id.go:177-186 Value *)
Definition id_value (v : idc) : goany := if id_val v =? 0 then ANil else AInt64 (i64 (id_val v)).

(** ** Variables and cells: which methods write in place *)
(** A program's ID variables hold an address or nil; the heap maps addresses to
    cells.  The state is (variables, heap). *)
Record ivars := mkIvars { iv_vars : list (option nat); iv_heap : list idptr }.
Definition iv_get (s : ivars) (x : nat) : option nat := nth x (iv_vars s) None.
Definition iv_load (s : ivars) (a : option nat) : idc := match a with None => None | Some n => nth_error (iv_heap s) n end.
Fixpoint upd {A} (l : list A) (i : nat) (y : A) : list A :=
  match l, i with
  | [], _ => []
  | _ :: r, O => y :: r
  | h :: r, S j => h :: upd r j y
  end.
Definition iv_content (s : ivars) (x : nat) : idc := iv_load s (iv_get s x).
(** The value of UInt64() on variable [x]. *)
Definition iv_uint64 (s : ivars) (x : nat) : Z := id_val (iv_content s x).
(** [*v = ID{...}]: variable [x] gets a new cell (or nil). *)
Definition iv_fresh (s : ivars) (x : nat) (c : idc) : ivars :=
  match c with
  | None => mkIvars (upd (iv_vars s) x None) (iv_heap s)
  | Some p => mkIvars (upd (iv_vars s) x (Some (length (iv_heap s)))) (iv_heap s ++ [p])
  end.
(** [v.id.f = ...]: the cell of variable [x] is written; allocated first when
    nil (id.go:124-129, 142-146). *)
Definition iv_inplace (s : ivars) (x : nat) (c : idc) : ivars :=
  match c with
  | None => s
  | Some p => match iv_get s x with
              | None => iv_fresh s x c
              | Some a => mkIvars (iv_vars s) (upd (iv_heap s) a p)
              end
  end.

Inductive iop :=
| OpNew (x : nat) (n : Z)          (* x = NewID(n) *)
| OpCopy (x y : nat)               (* x = y *)
| OpSet (x : nat) (s : bytes)      (* x.Set(s) *)
| OpReset (x : nat)                (* x.Reset() *)
| OpScan (x : nat) (v : goany)     (* x.Scan(v) *)
| OpUnJson (x : nat) (d : bytes)   (* x.UnmarshalJSON(d) *)
| OpUnYaml (x : nat) (r : option Z)(* x.UnmarshalYAML *)
| OpString (x : nat).              (* x.String(), caches *)

(** The variable an operation assigns to. *)
Definition op_target (o : iop) : nat :=
  match o with OpNew x _ | OpCopy x _ | OpSet x _ | OpReset x | OpScan x _ | OpUnJson x _ | OpUnYaml x _ | OpString x => x end.

Definition iv_step (s : ivars) (o : iop) : ivars :=
  match o with
  | OpNew x n => iv_fresh s x (id_new n)
  | OpCopy x y => mkIvars (upd (iv_vars s) x (iv_get s y)) (iv_heap s)
  | OpSet x t => match id_set (iv_content s x) t with (c, true) => iv_inplace s x c | (_, false) => s end
  | OpReset x => iv_inplace s x (id_reset (iv_content s x))
  | OpScan x v => match v with
                  | ANil => s
                  | _ => match id_scan (iv_content s x) v with (c, true) => iv_fresh s x c | (_, false) => s end
                  end
  | OpUnJson x d => match id_unjson (iv_content s x) d with (c, true) => iv_fresh s x c | (_, false) => s end
  | OpUnYaml x r => match id_unyaml (iv_content s x) r with (c, true) => iv_fresh s x c | (_, false) => s end
  | OpString x => iv_inplace s x (snd (id_string (iv_content s x)))
  end.
Definition iv_run (s : ivars) (l : list iop) : ivars := fold_left iv_step l s.
(** [k] ID variables, all zero. *)
Definition iv_init (k : nat) : ivars := mkIvars (repeat None k) [].

(** ** IDArray on contents *)
(** id.go:331-338 Contains *)
Definition ida_contains (n : list idc) (i : idc) : bool := existsb (fun v => id_val v =? id_val i) n.
(** id.go:280-287 Add *)
Definition ida_add (n : list idc) (i : idc) : list idc := if ida_contains n i then n else n ++ [i].
(** id.go:290-298 Concat: the recursive call swaps the operands once. *)
Definition ida_add_all (n other : list idc) : list idc := fold_left ida_add other n.
Definition ida_concat (n other : list idc) : list idc :=
  if (length other <? length n)%nat then ida_add_all other n else ida_add_all n other.
(** id.go:341-348 Overlaps *)
Definition ida_overlaps (n other : list idc) : bool := existsb (ida_contains other) n.
(** id.go:192-198 NewIDArray *)
Definition new_id_array (l : list Z) : list idc := fold_left (fun a x => ida_add a (id_new x)) l [].
(** id.go:201-210 IDArrayFromStrings *)
Definition ida_from_strings (l : list bytes) : list idc :=
  fold_left (fun a s => match parse_id s with (v, true) => ida_add a v | (_, false) => a end) l [].
(** id.go:271-277 List; 257-263 Strings; 266-268 String *)
Definition ida_list (n : list idc) : list Z := map id_val n.
Definition ida_strings (n : list idc) : list bytes := map (fun v => fst (id_string v)) n.
Definition ida_string (n : list idc) : bytes := join (B ",") (ida_strings n).
(** id.go:313-319 (IDArray).Int64Array; 322-328 Int64Array *)
Definition ida_int64s (n : list idc) : list Z := map (fun v => i64 (id_val v)) n.
Definition int64_array (l : list Z) : list Z := map i64 l.
(** id.go:301-310 Sort: sort.Slice is modelled by insertion sort on UInt64 (the
    standard library promises a sorted permutation; on the uint64 values that is
    a unique list, elements with equal UInt64 may come in another order). *)
Fixpoint ins_by (i : idc) (l : list idc) : list idc :=
  match l with
  | [] => [i]
  | j :: r => if id_val j <? id_val i then j :: ins_by i r else i :: l
  end.
Fixpoint sort_by (l : list idc) : list idc := match l with [] => [] | i :: r => ins_by i (sort_by r) end.
Definition ida_sort (n : list idc) : list idc := if (length n <? 2)%nat then n else sort_by n.

(** ** Postgres array text (lib/pq Int64Array) *)
(** pq.Int64Array.Value: "{a,b,c}". *)
Definition pq_value (l : list Z) : bytes := B "{" ++ join (B ",") (map (fmt_int 10) l) ++ B "}".
(** lib/pq array.go parseArray with scanLinearArray and the delimiter ",", on a
    one-dimensional array.  [PStart]: at an element; [PWord], [PQuote], [PEsc]:
    inside one, [cur] its characters in reverse; [PAfter]: after a quoted one;
    [PDone]: after the closing brace.  An unquoted NULL is a nil element, whose
    text is empty.  Errors are None. *)
Inductive pqs := PStart | PWord | PQuote | PEsc | PAfter | PDone.
Definition pq_word (cur : bytes) : bytes := let w := rev cur in if beqb w (B "NULL") then [] else w.
Definition is_ch (n : nat) (c : ascii) : bool := Nat.eqb (nat_of_ascii c) n.
Fixpoint pq_elems (st : pqs) (cur : bytes) (out : list bytes) (s : bytes) : option (list bytes) :=
  match s with
  | [] => match st with PDone => Some (rev out) | _ => None end
  | c :: r =>
      match st with
      | PStart => if is_ch 123 c || is_ch 44 c || is_ch 125 c then None
                  else if is_ch 34 c then pq_elems PQuote [] out r else pq_elems PWord [c] out r
      | PWord => if is_ch 44 c then pq_elems PStart [] (pq_word cur :: out) r
                 else if is_ch 125 c then pq_elems PDone [] (pq_word cur :: out) r
                 else pq_elems PWord (c :: cur) out r
      | PQuote => if is_ch 92 c then pq_elems PEsc cur out r
                  else if is_ch 34 c then pq_elems PAfter [] (rev cur :: out) r
                  else pq_elems PQuote (c :: cur) out r
      | PEsc => pq_elems PQuote (c :: cur) out r
      | PAfter => if is_ch 44 c then pq_elems PStart [] out r else if is_ch 125 c then pq_elems PDone [] out r else None
      | PDone => None
      end
  end.
(** parseArray, the opening braces: nested empty arrays are empty, everything
    else of more than one dimension is an error of scanLinearArray. *)
Fixpoint pq_open (k : nat) (s : bytes) : option (list bytes) :=
  match s with
  | c :: r => if is_ch 123 c then pq_open (S k) r
              else if is_ch 125 c then if Nat.ltb 0 k && beqb s (repeat (ascii_of_nat 125) k) then Some [] else None
              else if Nat.eqb k 1 then pq_elems PStart [] [] s else None
  | [] => None
  end.
(** pq.Int64Array.scanBytes *)
Fixpoint parse_all (l : list bytes) : option (list Z) :=
  match l with
  | [] => Some []
  | s :: r => match parse_int 64 s, parse_all r with Some n, Some k => Some (n :: k) | _, _ => None end
  end.
Definition pq_parse (s : bytes) : option (list Z) :=
  match pq_open 0 s with Some l => parse_all l | None => None end.
(** id.go:238-254 (IDArray).Value *)
Definition ida_value (n : list idc) : goany := match n with [] => ANil | _ => AStr (pq_value (ida_int64s n)) end.
(** id.go:213-235 (IDArray).Scan; the destination is first set to nil. *)
Definition ida_scan (old : list idc) (x : goany) : list idc * bool :=
  match x with
  | ANil => ([], true)
  | AStr s | ABytes s => match pq_parse s with
                         | Some l => (map (fun z => id_new (u64 z)) l, true)
                         | None => ([], false)
                         end
  | _ => ([], false)
  end.

(** ** IDArray as a Go slice *)
(** Backing arrays live in a heap; a slice is (array, length) with offset 0 and
    capacity the array's length; [None] is the nil slice.  Elements are the
    uint64 values.  [grow n] is the capacity append allocates when [n] elements
    no longer fit ([n < grow n]: Go's append). *)
Definition slice := option (nat * nat)%type.
Definition arrays := list (list Z).
Definition sl_arr (a : arrays) (i : nat) : list Z := nth i a [].
Definition sl_elems (a : arrays) (s : slice) : list Z :=
  match s with None => [] | Some (i, n) => firstn n (sl_arr a i) end.
Definition sl_len (s : slice) : nat := match s with None => O | Some (_, n) => n end.
(** Go's append(s, x) of one element. *)
Definition sl_append (grow : nat -> nat) (a : arrays) (s : slice) (x : Z) : arrays * slice :=
  let n := sl_len s in
  let fresh := (a ++ [sl_elems a s ++ x :: repeat 0 (grow n - S n)], Some (length a, S n)) in
  match s with
  | None => fresh
  | Some (i, _) => if (n <? length (sl_arr a i))%nat then (upd a i (upd (sl_arr a i) n x), Some (i, S n)) else fresh
  end.
(** id.go:280-287 Add *)
Definition sl_add (grow : nat -> nat) (a : arrays) (s : slice) (x : Z) : arrays * slice :=
  if existsb (Z.eqb x) (sl_elems a s) then (a, s) else sl_append grow a s x.
(** id.go:294-296: the loop of Concat, reading other[k] when it gets there. *)
Fixpoint sl_add_from (grow : nat -> nat) (fuel : nat) (a : arrays) (s other : slice) (k : nat) : arrays * slice :=
  match fuel with
  | O => (a, s)
  | S f => let '(a', s') := sl_add grow a s (nth k (sl_elems a other) 0) in sl_add_from grow f a' s' other (S k)
  end.
(** id.go:290-298 Concat *)
Definition sl_concat (grow : nat -> nat) (a : arrays) (s other : slice) : arrays * slice :=
  if (sl_len other <? sl_len s)%nat then sl_add_from grow (sl_len s) a other s O else sl_add_from grow (sl_len other) a s other O.
(** id.go:192-198 NewIDArray *)
Definition sl_new (grow : nat -> nat) (a : arrays) (l : list Z) : arrays * slice :=
  fold_left (fun st x => sl_add grow (fst st) (snd st) x) l (a, None).
(** Go's growth of a small slice of 8-byte elements (runtime.growslice: double,
    at least one). *)
Definition go_grow (n : nat) : nat := Nat.max 1 (2 * n).
