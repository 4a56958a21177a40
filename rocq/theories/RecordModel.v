(** JSON of generated rows and of the values in them.  The structs are those of
    internal/cli/schema/template.go:93-110 with the field types of
    internal/cli/schema/types.go:17-97 and 103-137; schema/schema.go:180-205 Tag
    gives every field the tag json:",omitempty" (in a column name without quotes or
    backslashes), so encoding/json (Go 1.26) names the members after the fields and
    leaves out empty values.  The methods of the
    xdb types are those of IdModel, TypeModel, FloatModel, TimeZone; JsonModel has
    the texts and the parser. *)
From Verif Require Import GoBase IdModel FloatModel TypeModel ParamModel JsonModel.
From Verif Require Import TimeZone.
Open Scope Z_scope.

(** A slice: None is nil, otherwise the array behind it as far as it was ever
    written, and the length.  Elements beyond the written ones are zero. *)
Definition slice (A : Type) : Type := option (list A * nat).
Definition s_list {A} (s : slice A) : list A := match s with None => [] | Some (b, n) => firstn n b end.
(** The value of a field, by the Go type of the field (types.go:17-97, 115-129);
    float64 and float32 by their bits; the types string, xdb.NULLString and
    xdb.UUID have the kind string and no JSON methods. *)
Inductive rval :=
| RId (v : idc) | RId32 (n : Z) | RInt64 (n : Z) | RInt32 (n : Z) | RFloat (b : Z) | RBool (b : bool) | RTime (z : ztime)
| RText (s : bytes) | RInt (size n : Z) | RGoBool (b : bool) | RDouble (b : Z) | RSingle (b : Z) | RBytes (s : option bytes)
| RIds (l : slice idc) | RStrings (l : slice bytes) | RInts (l : slice Z).
Definition row : Type := list (bytes * rval).
(** What encoding/json takes from other packages: the texts of float64 and float32
    and the reader of the latter (strconv), base64 of a []byte, the case folding of
    names, and which names are exported (go/token). *)
Record codec := mkCodec { fmt64 : Z -> bytes; fmt32 : Z -> bytes; read32 : bytes -> option Z; b64e : bytes -> bytes; b64d : bytes -> option bytes; fold : bytes -> bytes; exported : bytes -> bool }.

(** ** json.Marshal *)
(** encode.go marshalerEncoder: the text a MarshalJSON returns must be JSON.  (It is
    also compacted; the texts of the xdb types have no blanks and none of the
    characters that are escaped for HTML.) *)
Definition marshaled (t : bytes) : option bytes := match parse_json t with Some _ => Some t | None => None end.
Definition all_some {A} (l : list (option A)) : option (list A) :=
  fold_right (fun o acc => match o, acc with Some x, Some r => Some (x :: r) | _, _ => None end) (Some []) l.
(** encode.go sliceEncoder, arrayEncoder *)
Definition list_text {A} (enc : A -> option bytes) (s : slice A) : option bytes :=
  match s with
  | None => Some (B "null")
  | Some _ => match all_some (map enc (s_list s)) with Some l => Some (B "[" ++ join (B ",") l ++ B "]") | None => None end
  end.
(** encode.go: the encoder of each type; None is an error (floatEncoder refuses NaN
    and infinities) *)
Definition value_text (cd : codec) (v : rval) : option bytes :=
  match v with
  | RId c => marshaled (id_json c)
  | RId32 n => marshaled (id32_json n)
  | RInt64 n => marshaled (int64_json n)
  | RInt32 n => marshaled (int32_json n)
  | RFloat b => marshaled (float_json b)
  | RBool b => marshaled (bool_json b)
  | RTime z => match zx_json z with Some t => marshaled t | None => None end
  | RText s => Some (enc_string s)
  | RInt _ n => Some (fmt_int 10 n)
  | RGoBool b => Some (json_text (JBool b))
  | RDouble b => if f_abs b <? inf_bits then Some (fmt64 cd b) else None
  | RSingle b => if f_abs (widen b) <? inf_bits then Some (fmt32 cd b) else None
  | RBytes None => Some (B "null")
  | RBytes (Some s) => Some ([dquote] ++ b64e cd s ++ [dquote])
  | RIds l => list_text (fun c => marshaled (id_json c)) l
  | RStrings l => list_text (fun s => Some (enc_string s)) l
  | RInts l => list_text (fun n => Some (fmt_int 10 n)) l
  end.
(** encode.go isEmptyValue, by kind: numbers that are zero (with no sign), false, the
    empty string, slices of length 0; ID and Time are structs and never empty *)
Definition is_empty_value (v : rval) : bool :=
  match v with
  | RId _ | RTime _ => false
  | RId32 n | RInt64 n | RInt32 n | RInt _ n => n =? 0
  | RFloat b | RDouble b | RSingle b => b =? 0
  | RBool b | RGoBool b => negb b
  | RText s => is_empty s
  | RBytes s => match s with None => true | Some x => is_empty x end
  | RIds l => is_empty (s_list l)
  | RStrings l => is_empty (s_list l)
  | RInts l => is_empty (s_list l)
  end.
(** encode.go structEncoder: the exported fields in the order of the struct, without
    those with omitempty that are empty *)
Definition row_text (cd : codec) (r : row) : option bytes :=
  match all_some (map (fun f => match value_text cd (snd f) with Some t => Some (enc_string (fst f) ++ B ":" ++ t) | None => None end) (filter (fun f => exported cd (fst f) && negb (is_empty_value (snd f))) r)) with
  | Some l => Some (B "{" ++ join (B ",") l ++ B "}")
  | None => None
  end.

(** ** json.Unmarshal *)
(** decode.go: an UnmarshalJSON that fails ends the decoding, a value of the wrong
    type is skipped and reported at the end *)
Inductive outcome := DOk | DSaved | DStop.
Definition worst (a b : outcome) : outcome := match a, b with DStop, _ | _, DStop => DStop | DSaved, _ | _, DSaved => DSaved | DOk, DOk => DOk end.
Definition stops {A} (f : A -> rval) (x : A * bool) : rval * outcome := (f (fst x), if snd x then DOk else DStop).
Definition saved {A} (x : A * bool) : A * outcome := (fst x, if snd x then DOk else DSaved).
(** The value at the beginning of a text: the value, its own text, the rest. *)
Definition next_value (s : bytes) : option (json * bytes * bytes) :=
  let s1 := skip_ws s in
  match jval (2 * length s1 + 2) s1 with Some (v, r) => Some (v, firstn (length s1 - length r) s1, r) | None => None end.
(** decode.go array: the elements after the opening bracket, with their texts *)
Fixpoint elements (fuel : nat) (s : bytes) : list (json * bytes) :=
  match fuel with
  | O => []
  | S f => match next_value s with
           | None => []
           | Some (v, t, r) => (v, t) :: match skip_ws r with c :: r1 => if byte c =? 44 then elements f r1 else [] | [] => [] end
           end
  end.
Definition array_parts (t : bytes) : list (json * bytes) :=
  match t with
  | _ :: r => match skip_ws r with d :: _ => if byte d =? 93 then [] else elements (length r) r | [] => [] end
  | [] => []
  end.
(** decode.go object: the members after the opening brace *)
Fixpoint fields_of (fuel : nat) (s : bytes) : list (bytes * (json * bytes)) :=
  match fuel with
  | O => []
  | S f => match skip_ws s with
           | q :: r => match unquote (S (length r)) r with
                       | None => []
                       | Some (k, r0) =>
                           match skip_ws r0 with
                           | _ :: r1 => match next_value r1 with
                                        | None => []
                                        | Some (v, t, r2) => (k, (v, t)) :: match skip_ws r2 with c :: r3 => if byte c =? 44 then fields_of f r3 else [] | [] => [] end
                                        end
                           | [] => []
                           end
                       end
           | [] => []
           end
  end.
Definition object_parts (t : bytes) : list (bytes * (json * bytes)) :=
  match t with
  | _ :: r => match skip_ws r with d :: _ => if byte d =? 125 then [] else fields_of (length r) r | [] => [] end
  | [] => []
  end.
(** decode.go array into a slice: element i is decoded into what the array behind
    the slice holds there.  The array afterwards, how many elements were decoded,
    how it went. *)
Fixpoint into_array {A} (dec : A -> json -> bytes -> A * outcome) (zero : A) (back : list A) (l : list (json * bytes)) : list A * nat * outcome :=
  match l with
  | [] => (back, O, DOk)
  | (v, t) :: r =>
      let '(x, o) := dec (hd zero back) v t in
      match o with
      | DStop => (x :: tl back, 1%nat, DStop)
      | _ => let '(xs, n, o') := into_array dec zero (tl back) r in (x :: xs, S n, worst o o')
      end
  end.
Definition into_list {A} (dec : A -> json -> bytes -> A * outcome) (zero : A) (old : slice A) (v : json) (t : bytes) : slice A * outcome :=
  match v with
  | JNull => (None, DOk)
  | JArr _ =>
      let '(back, n0) := match old with None => ([], O) | Some (b, n) => (b, n) end in
      let l := array_parts t in
      let '(xs, n, o) := into_array dec zero back l in
      (match o with DStop => Some (xs, Nat.max n0 n) | _ => if is_empty l then Some ([], O) else Some (xs, n) end, o)
  | _ => (old, DSaved)
  end.
(** decode.go literalStore into the basic kinds; null leaves them alone.  The
    numbers: ParseInt and the range of the type, ParseFloat. *)
Definition into_int (size old : Z) (v : json) : Z * bool :=
  match v with
  | JNum t => match parse_int size t with Some n => (n, true) | None => (old, false) end
  | JNull => (old, true)
  | _ => (old, false)
  end.
Definition into_bool (old : bool) (v : json) : bool * bool := match v with JBool b => (b, true) | JNull => (old, true) | _ => (old, false) end.
Definition into_float (read : bytes -> option Z) (old : Z) (v : json) : Z * bool :=
  match v with
  | JNum t => match read t with Some b => (b, true) | None => (old, false) end
  | JNull => (old, true)
  | _ => (old, false)
  end.
(** A []byte: a string of base64, or null.  (An array of numbers is also taken, which
    is left out: it is an error here.) *)
Definition into_bytes (cd : codec) (old : option bytes) (v : json) : option bytes * bool :=
  match v with
  | JStr s => match b64d cd s with Some x => (Some x, true) | None => (old, false) end
  | JNull => (None, true)
  | _ => (old, false)
  end.
Definition dec_id (old : idc) (v : json) (t : bytes) : idc * outcome := let x := id_unjson old t in (fst x, if snd x then DOk else DStop).
Definition dec_text (old : bytes) (v : json) (t : bytes) : bytes * outcome := saved (into_string old v).
Definition dec_int (size old : Z) (v : json) (t : bytes) : Z * outcome := saved (into_int size old v).
(** decode.go value: into a field that holds [old]; [t] is the text of [v] *)
Definition into_value (cd : codec) (old : rval) (v : json) (t : bytes) : rval * outcome :=
  match old with
  | RId c => stops RId (id_unjson c t)
  | RId32 n => stops RId32 (id32_unjson n t)
  | RInt64 n => stops RInt64 (int64_unjson n t)
  | RInt32 n => stops RInt32 (int32_unjson n t)
  | RFloat b => stops RFloat (float_unjson b t)
  | RBool b => stops RBool (bool_unjson b t)
  | RTime z => stops RTime (zx_unjson z t)
  | RText s => let '(x, o) := saved (into_string s v) in (RText x, o)
  | RInt size n => let '(x, o) := saved (into_int size n v) in (RInt size x, o)
  | RGoBool b => let '(x, o) := saved (into_bool b v) in (RGoBool x, o)
  | RDouble b => let '(x, o) := saved (into_float parse_float b v) in (RDouble x, o)
  | RSingle b => let '(x, o) := saved (into_float (read32 cd) b v) in (RSingle x, o)
  | RBytes s => let '(x, o) := saved (into_bytes cd s v) in (RBytes x, o)
  | RIds l => let '(x, o) := into_list dec_id None l v t in (RIds x, o)
  | RStrings l => let '(x, o) := into_list dec_text [] l v t in (RStrings x, o)
  | RInts l => let '(x, o) := into_list (dec_int 64) 0 l v t in (RInts x, o)
  end.
(** The first field whose name satisfies [p] is decoded into; None: there is none. *)
Fixpoint into_field (cd : codec) (p : bytes -> bool) (r : row) (v : json) (t : bytes) : option (row * outcome) :=
  match r with
  | [] => None
  | (n, x) :: r' =>
      if p n then let '(y, o) := into_value cd x v t in Some ((n, y) :: r', o)
      else match into_field cd p r' v t with Some (r'', o) => Some ((n, x) :: r'', o) | None => None end
  end.
(** decode.go object into a struct: the field of exactly that name, else the first
    that differs in case only; other members are skipped *)
Definition into_member (cd : codec) (r : row) (k : bytes) (v : json) (t : bytes) : row * outcome :=
  match into_field cd (fun n => exported cd n && beqb n k) r v t with
  | Some x => x
  | None => match into_field cd (fun n => exported cd n && beqb (fold cd n) (fold cd k)) r v t with Some x => x | None => (r, DOk) end
  end.
Fixpoint into_row (cd : codec) (r : row) (l : list (bytes * (json * bytes))) : row * outcome :=
  match l with
  | [] => (r, DOk)
  | (k, (v, t)) :: l' =>
      let '(r1, o) := into_member cd r k v t in
      match o with
      | DStop => (r1, DStop)
      | _ => let '(r2, o') := into_row cd r1 l' in (r2, worst o o')
      end
  end.
Definition is_ok (o : outcome) : bool := match o with DOk => true | _ => false end.
(** json.Unmarshal(text, &row): a text that is not JSON changes nothing *)
Definition row_unjson (cd : codec) (r : row) (text : bytes) : row * bool :=
  match parse_json text with
  | None => (r, false)
  | Some JNull => (r, true)
  | Some (JObj _) => let '(r', o) := into_row cd r (object_parts (skip_ws text)) in (r', is_ok o)
  | Some _ => (r, false)
  end.
(** json.Marshal and json.Unmarshal of a single value, for example an IDArray.  (The
    text of the value in a valid text is the text without the blanks around it.) *)
Definition value_unjson (cd : codec) (old : rval) (text : bytes) : rval * bool :=
  match parse_json text, next_value text with
  | Some v, Some (_, t, _) => let '(x, o) := into_value cd old v t in (x, is_ok o)
  | _, _ => (old, false)
  end.
