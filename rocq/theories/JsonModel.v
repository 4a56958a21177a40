(** Model of the JSON values of the API: Strings, Metadata, KVSet (types.go) and
    cursors (query.go:146-170), with encoding/json at the level of bytes: the
    encoder of strings with its escapes and the replacement of invalid UTF-8, a
    parser of JSON texts, and Unmarshal into []string, map[string]string,
    map[string][]string and map[string]any.  The limit of 10000 nested values is
    left out. *)
From Verif Require Import GoBase GoBaseFacts IdModel TypeModel ParamModel.
Open Scope Z_scope.

Definition zb (z : Z) : ascii := ascii_of_nat (Z.to_nat z).
Definition in_rng (lo hi : Z) (c : ascii) : bool := (lo <=? byte c) && (byte c <=? hi).

(** ** UTF-8 *)
(** unicode/utf8.DecodeRune: the number of bytes of the first rune, 0 when it is
    not valid *)
Definition utf8_size (s : bytes) : nat :=
  match s with
  | [] => 0%nat
  | a :: r =>
      let x := byte a in
      if x <? 128 then 1%nat
      else if x <? 194 then 0%nat
      else if x <? 224 then match r with b :: _ => if in_rng 128 191 b then 2%nat else 0%nat | _ => 0%nat end
      else if x <? 240 then match r with
                            | b :: c :: _ => if in_rng (if x =? 224 then 160 else 128) (if x =? 237 then 159 else 191) b && in_rng 128 191 c then 3%nat else 0%nat
                            | _ => 0%nat
                            end
      else if x <? 245 then match r with
                            | b :: c :: d :: _ => if in_rng (if x =? 240 then 144 else 128) (if x =? 244 then 143 else 191) b && in_rng 128 191 c && in_rng 128 191 d then 4%nat else 0%nat
                            | _ => 0%nat
                            end
      else 0%nat
  end.
(** utf8.AppendRune *)
Definition utf8_enc (r : Z) : bytes :=
  if r <? 128 then [zb r]
  else if r <? 2048 then [zb (192 + r / 64); zb (128 + r mod 64)]
  else if r <? 65536 then [zb (224 + r / 4096); zb (128 + r / 64 mod 64); zb (128 + r mod 64)]
  else [zb (240 + r / 262144); zb (128 + r / 4096 mod 64); zb (128 + r / 64 mod 64); zb (128 + r mod 64)].
(** U+FFFD *)
Definition replacement : bytes := [zb 239; zb 191; zb 189].
(** A string as runes: [Some] the bytes of a valid one, [None] an invalid byte. *)
Fixpoint runes (fuel : nat) (s : bytes) : list (option bytes) :=
  match fuel, s with
  | S f, c :: r => match utf8_size s with
                   | O => None :: runes f r
                   | n => Some (firstn n s) :: runes f (skipn n s)
                   end
  | _, _ => []
  end.

(** ** Encoding (encoding/json, json.Marshal: HTML escaping is on) *)
Definition hex_low (d : Z) : ascii := if d <? 10 then zb (48 + d) else zb (87 + d).
Definition esc (c : ascii) : bytes :=
  let x := byte c in
  if x =? 34 then B "\""" else if x =? 92 then B "\\"
  else if x =? 8 then B "\b" else if x =? 12 then B "\f" else if x =? 10 then B "\n" else if x =? 13 then B "\r" else if x =? 9 then B "\t"
  else if (x <? 32) || (x =? 60) || (x =? 62) || (x =? 38) then B "\u00" ++ [hex_low (x / 16); hex_low (x mod 16)]
  else [c].
Definition enc_rune (o : option bytes) : bytes :=
  match o with
  | None => B "\ufffd"
  | Some [c] => esc c
  | Some s => if beqb s [zb 226; zb 128; zb 168] then B "\u2028" else if beqb s [zb 226; zb 128; zb 169] then B "\u2029" else s
  end.
Definition enc_chars (s : bytes) : bytes := flat_map enc_rune (runes (length s) s).
Definition enc_string (s : bytes) : bytes := [dquote] ++ enc_chars s ++ [dquote].
Inductive json := JNull | JBool (b : bool) | JNum (t : bytes) | JStr (s : bytes) | JArr (l : list json) | JObj (l : list (bytes * json)).
Fixpoint json_text (v : json) : bytes :=
  match v with
  | JNull => B "null"
  | JBool b => if b then B "true" else B "false"
  | JNum t => t
  | JStr s => enc_string s
  | JArr l => B "[" ++ join (B ",") (map json_text l) ++ B "]"
  | JObj l => B "{" ++ join (B ",") (map (fun kv => enc_string (fst kv) ++ B ":" ++ json_text (snd kv)) l) ++ B "}"
  end.

(** ** Parsing *)
Definition hex_val (c : ascii) : option Z :=
  let x := byte c in
  if in_rng 48 57 c then Some (x - 48) else if in_rng 97 102 c then Some (x - 87) else if in_rng 65 70 c then Some (x - 55) else None.
Definition u4 (s : bytes) : option (Z * bytes) :=
  match s with
  | a :: b :: c :: d :: r =>
      match hex_val a, hex_val b, hex_val c, hex_val d with
      | Some a, Some b, Some c, Some d => Some (((a * 16 + b) * 16 + c) * 16 + d, r)
      | _, _, _, _ => None
      end
  | _ => None
  end.
Definition simple_esc (c : ascii) : option bytes :=
  let x := byte c in
  if (x =? 34) || (x =? 92) || (x =? 47) then Some [c]
  else if x =? 98 then Some [zb 8] else if x =? 102 then Some [zb 12] else if x =? 110 then Some [zb 10] else if x =? 114 then Some [zb 13] else if x =? 116 then Some [zb 9]
  else None.
Definition surrogate (u : Z) : bool := (55296 <=? u) && (u <? 57344).
(** A \uXXXX escape after a first surrogate [u] that completes it. *)
Definition second_half (u : Z) (s : bytes) : option (Z * bytes) :=
  match s with
  | b :: e :: r => if (byte b =? 92) && (byte e =? 117) then
                     match u4 r with
                     | Some (v, r') => if (u <? 56320) && (56320 <=? v) && (v <? 57344) then Some ((u - 55296) * 1024 + (v - 56320) + 65536, r') else None
                     | None => None
                     end
                   else None
  | _ => None
  end.
Definition add_to (a : bytes) (o : option (bytes * bytes)) : option (bytes * bytes) := match o with Some (b, r) => Some (a ++ b, r) | None => None end.
(** What follows an opening quote: the string and what follows the closing one. *)
Fixpoint unquote (fuel : nat) (s : bytes) : option (bytes * bytes) :=
  match fuel with
  | O => None
  | S f =>
      match s with
      | [] => None
      | c :: r =>
          if byte c =? 34 then Some ([], r)
          else if byte c =? 92 then
            match r with
            | [] => None
            | e :: r1 =>
                match simple_esc e with
                | Some x => add_to x (unquote f r1)
                | None =>
                    if byte e =? 117 then
                      match u4 r1 with
                      | None => None
                      | Some (u, r2) =>
                          if surrogate u then
                            match second_half u r2 with
                            | Some (v, r3) => add_to (utf8_enc v) (unquote f r3)
                            | None => add_to replacement (unquote f r2)
                            end
                          else add_to (utf8_enc u) (unquote f r2)
                      end
                    else None
                end
            end
          else if byte c <? 32 then None
          else match utf8_size s with
               | O => add_to replacement (unquote f r)
               | n => add_to (firstn n s) (unquote f (skipn n s))
               end
      end
  end.
Definition is_digit (c : ascii) : bool := in_rng 48 57 c.
Fixpoint span_digits (s : bytes) : bytes * bytes :=
  match s with
  | c :: r => if is_digit c then let '(a, b) := span_digits r in (c :: a, b) else ([], s)
  | [] => ([], [])
  end.
(** The number at the start of a text. *)
Definition num_frac (s : bytes) : option (bytes * bytes) :=
  match s with
  | c :: r => if byte c =? 46 then match span_digits r with ([], _) => None | (d, r') => Some (c :: d, r') end else Some ([], s)
  | [] => Some ([], [])
  end.
Definition num_exp (s : bytes) : option (bytes * bytes) :=
  match s with
  | c :: r => if (byte c =? 101) || (byte c =? 69) then
                let '(sg, r1) := match r with d :: r' => if (byte d =? 43) || (byte d =? 45) then ([d], r') else ([], r) | [] => ([], r) end in
                match span_digits r1 with ([], _) => None | (d, r2) => Some (c :: sg ++ d, r2) end
              else Some ([], s)
  | [] => Some ([], [])
  end.
Definition num_int (s : bytes) : option (bytes * bytes) :=
  match s with
  | c :: r => if byte c =? 48 then Some ([c], r) else match span_digits s with ([], _) => None | x => Some x end
  | [] => None
  end.
Definition scan_num (s : bytes) : option (bytes * bytes) :=
  let '(sg, r0) := match s with c :: r => if byte c =? 45 then ([c], r) else ([], s) | [] => ([], s) end in
  match num_int r0 with
  | None => None
  | Some (i, r1) => match num_frac r1 with
                    | None => None
                    | Some (fr, r2) => match num_exp r2 with
                                       | None => None
                                       | Some (e, r3) => Some (sg ++ i ++ fr ++ e, r3)
                                       end
                    end
  end.
Definition is_ws (c : ascii) : bool := let x := byte c in (x =? 32) || (x =? 9) || (x =? 10) || (x =? 13).
Fixpoint skip_ws (s : bytes) : bytes := match s with c :: r => if is_ws c then skip_ws r else s | [] => [] end.
Fixpoint jval (fuel : nat) (s : bytes) {struct fuel} : option (json * bytes) :=
  match fuel with
  | O => None
  | S f =>
      match skip_ws s with
      | [] => None
      | c :: r =>
          if byte c =? 34 then match unquote (S (length r)) r with Some (x, r') => Some (JStr x, r') | None => None end
          else if byte c =? 91 then
            match skip_ws r with
            | d :: r1 => if byte d =? 93 then Some (JArr [], r1) else match jelems f r with Some (l, r2) => Some (JArr l, r2) | None => None end
            | [] => None
            end
          else if byte c =? 123 then
            match skip_ws r with
            | d :: r1 => if byte d =? 125 then Some (JObj [], r1) else match jmembers f r with Some (l, r2) => Some (JObj l, r2) | None => None end
            | [] => None
            end
          else if has_prefix (B "null") (c :: r) then Some (JNull, skipn 4 (c :: r))
          else if has_prefix (B "true") (c :: r) then Some (JBool true, skipn 4 (c :: r))
          else if has_prefix (B "false") (c :: r) then Some (JBool false, skipn 5 (c :: r))
          else match scan_num (c :: r) with Some (t, r') => Some (JNum t, r') | None => None end
      end
  end
with jelems (fuel : nat) (s : bytes) {struct fuel} : option (list json * bytes) :=
  match fuel with
  | O => None
  | S f =>
      match jval f s with
      | None => None
      | Some (v, r) =>
          match skip_ws r with
          | c :: r1 => if byte c =? 44 then match jelems f r1 with Some (l, r2) => Some (v :: l, r2) | None => None end
                       else if byte c =? 93 then Some ([v], r1) else None
          | [] => None
          end
      end
  end
with jmembers (fuel : nat) (s : bytes) {struct fuel} : option (list (bytes * json) * bytes) :=
  match fuel with
  | O => None
  | S f =>
      match skip_ws s with
      | q :: r =>
          if negb (byte q =? 34) then None else
          match unquote (S (length r)) r with
          | None => None
          | Some (k, r0) =>
              match skip_ws r0 with
              | co :: r1 =>
                  if negb (byte co =? 58) then None else
                  match jval f r1 with
                  | None => None
                  | Some (v, r2) =>
                      match skip_ws r2 with
                      | c :: r3 => if byte c =? 44 then match jmembers f r3 with Some (l, r4) => Some ((k, v) :: l, r4) | None => None end
                                   else if byte c =? 125 then Some ([(k, v)], r3) else None
                      | [] => None
                      end
                  end
              | [] => None
              end
          end
      | [] => None
      end
  end.
(** A whole text. *)
Definition parse_json (s : bytes) : option json :=
  match jval (2 * length s + 2) s with Some (v, r) => if is_empty (skip_ws r) then Some v else None | None => None end.

(** ** json.Unmarshal into the types of the API; the flag is false on an error *)
(** into a string that holds [old] *)
Definition into_string (old : bytes) (v : json) : bytes * bool :=
  match v with JStr s => (s, true) | JNull => (old, true) | _ => (old, false) end.
(** into a []string; [back] is the array behind the slice, over its whole
    capacity: element i is decoded into what is there *)
Fixpoint into_elems (back : list bytes) (l : list json) : list bytes * bool :=
  match l with
  | [] => ([], true)
  | v :: r => let '(x, ok1) := into_string (match back with b :: _ => b | [] => [] end) v in
              let '(xs, ok2) := into_elems (tl back) r in (x :: xs, ok1 && ok2)
  end.
Definition into_slice (old : option (list bytes)) (back : list bytes) (v : json) : option (list bytes) * bool :=
  match v with
  | JNull => (None, true)
  | JArr l => let '(xs, ok) := into_elems back l in (Some xs, ok)
  | _ => (old, false)
  end.
(** into a map: every member is decoded into a new zero value and stored, even
    when it has the wrong type *)
Definition into_map {V} (elem : json -> V * bool) (old : gmap V) (v : json) : gmap V * bool :=
  match v with
  | JNull => (None, true)
  | JObj l => (Some (fold_left (fun acc kv => put (fst kv) (fst (elem (snd kv))) acc) l (entries old)), forallb (fun kv => snd (elem (snd kv))) l)
  | _ => (old, false)
  end.
Definition meta_elem : json -> bytes * bool := into_string [].
Definition kv_elem : json -> option (list bytes) * bool := into_slice None [].

(** types.go:225-246 Metadata.Scan, 275-296 KVSet.Scan *)
Definition map_scan {V} (elem : json -> V * bool) (old : gmap V) (x : goany) : gmap V * bool :=
  match x with
  | ANil => (None, true)
  | AStr s | ABytes s => if is_empty s then (Some [], true) else match parse_json s with None => (old, false) | Some v => into_map elem old v end
  | _ => (old, false)
  end.
Definition metadata_scan := map_scan meta_elem.
Definition kvset_scan := map_scan kv_elem.
(** json.Marshal of a map: the keys sorted *)
Definition map_json {V} (elem : V -> json) (m : gmap V) : json :=
  JObj (flat_map (fun k => match mget m k with Some v => [(k, elem v)] | None => [] end) (ordered_keys m)).
Definition slice_json (l : option (list bytes)) : json := match l with None => JNull | Some l => JArr (map JStr l) end.
(** types.go:249-258 Metadata.Value, 299-308 KVSet.Value *)
Definition map_value {V} (elem : V -> json) (m : gmap V) : goany :=
  if is_empty (entries m) then ANil else AStr (json_text (map_json elem m)).
Definition metadata_value : gmap bytes -> goany := map_value JStr.
Definition kvset_value : gmap (option (list bytes)) -> goany := map_value slice_json.

(** types.go:143-154 Strings.Scan; fmt.Sprint prints a []byte as [1 2 3];
    [show] stands for the values of other types *)
Definition sprint (show : goany -> bytes) (x : goany) : bytes :=
  match x with
  | ABytes b => B "[" ++ join (B " ") (map (fun c => fmt_uint 10 (byte c)) b) ++ B "]"
  | _ => as_string show x
  end.
Definition strings_scan (show : goany -> bytes) (old : option (list bytes)) (back : list bytes) (x : goany) : option (list bytes) * bool :=
  match x with
  | ANil => (None, true)
  | _ => let v := sprint show x in
         if is_empty v then (Some [], true) else match parse_json v with None => (old, false) | Some j => into_slice old back j end
  end.
(** types.go:157-166 Strings.Value *)
Definition strings_value (n : option (list bytes)) : goany := match n with None => ANil | Some _ => AStr (json_text (slice_json n)) end.

(** Scan of a variable of type Strings as seen from the heap of arrays: a
    variable is (array, length); decoding writes into the array as far as it
    goes and takes a new one when it is too short. *)
Definition sarrays := list (list bytes).
Definition svar := option (nat * nat)%type.
Definition s_back (h : sarrays) (v : svar) : list bytes := match v with None => [] | Some (a, _) => nth a h [] end.
Definition s_elems (h : sarrays) (v : svar) : option (list bytes) := match v with None => None | Some (a, n) => Some (firstn n (nth a h [])) end.
Definition strings_scan_heap (h : sarrays) (v : svar) (text : bytes) : sarrays * svar * bool :=
  if is_empty text then (h ++ [[]], Some (length h, O), true) else
  match parse_json text with
  | None => (h, v, false)
  | Some JNull => (h, None, true)
  | Some (JArr l) =>
      let back := s_back h v in
      let '(xs, ok) := into_elems back l in
      if is_empty l then (h ++ [[]], Some (length h, O), true) else
      let h1 := match v with Some (a, _) => upd h a (firstn (length back) xs ++ skipn (length xs) back) | None => h end in
      match v with
      | Some (a, _) => if (length xs <=? length back)%nat then (h1, Some (a, length xs), ok) else (h1 ++ [xs], Some (length h1, length xs), ok)
      | None => (h1 ++ [xs], Some (length h1, length xs), ok)
      end
  | Some _ => (h, v, false)
  end.
(** Scan of a map variable: the map is changed in place *)
Definition map_scan_heap {V} (elem : json -> V * bool) (h : mheap V) (v : option nat) (text : bytes) : mheap V * option nat * bool :=
  if is_empty text then (h ++ [[]], Some (length h), true) else
  match parse_json text with
  | None => (h, v, false)
  | Some j => match v, into_map elem (match v with None => None | Some a => Some (nth a h []) end) j with
              | _, (None, ok) => (h, None, ok)
              | Some a, (Some l, ok) => (upd h a l, Some a, ok)
              | None, (Some l, ok) => (h ++ [l], Some (length h), ok)
              end
  end.

(** ** Cursors: query.go:146-170 *)
(** The values in a cursor; maps are lists of entries in the order of the keys.
     [CInt]: any Go integer; [CFloat n]: the float64 with
    the integer value [n]; [CFloatText t]: the float64 of another number. *)
Inductive cval := CNull | CBool (b : bool) | CInt (n : Z) | CFloat (n : Z) | CFloatText (t : bytes) | CStr (s : bytes) | CArr (l : list cval) | CMap (l : list (bytes * cval)).
(** The float64 next to an integer: 53 significant bits, ties to even. *)
Definition f64 (n : Z) : Z :=
  let a := Z.abs n in
  if a <? 2 ^ 53 then n else
  let e := Z.log2 a - 52 in
  Z.sgn n * (round_even a (2 ^ e) * 2 ^ e).
Definition int_literal (t : bytes) : option Z :=
  match t with
  | c :: r => if byte c =? 45 then option_map Z.opp (dec_value_from 0 r) else dec_value_from 0 t
  | [] => None
  end.
Fixpoint cval_json (v : cval) : json :=
  match v with
  | CNull => JNull
  | CBool b => JBool b
  | CInt n => JNum (fmt_int 10 n)
  | CFloat n => JNum (fmt_int 10 n)
  | CFloatText t => JNum t
  | CStr s => JStr s
  | CArr l => JArr (map cval_json l)
  | CMap l => JObj (map (fun kv => (fst kv, cval_json (snd kv))) l)
  end.
(** A Go map as the list of its entries in the order of the keys, which is how
    json.Marshal writes it: storing an entry. *)
Fixpoint sput {V} (k : bytes) (v : V) (l : list (bytes * V)) : list (bytes * V) :=
  match l with
  | [] => [(k, v)]
  | (j, w) :: r => if beqb k j then (k, v) :: r else if bltb k j then (k, v) :: l else (j, w) :: sput k v r
  end.
Definition stored {V} (l : list (bytes * V)) : list (bytes * V) := fold_left (fun acc kv => sput (fst kv) (snd kv) acc) l [].
(** json.Unmarshal into any: a later member replaces an earlier one of the same
    name.  A number outside the range of float64, which is an error in Go, is
    not told apart. *)
Fixpoint json_cval (v : json) : cval :=
  match v with
  | JNull => CNull
  | JBool b => CBool b
  | JNum t => match int_literal t with Some n => CFloat (f64 n) | None => CFloatText t end
  | JStr s => CStr s
  | JArr l => CArr (map json_cval l)
  | JObj l => CMap (stored (map (fun kv => (fst kv, json_cval (snd kv))) l))
  end.
(** query.go:152-154 EncodeCursor; MapAny.JSON is json.Marshal (the package
    effective-security/x is not in the repository) *)
Definition encode_cursor (m : list (bytes * cval)) : bytes := b64_encode (json_text (cval_json (CMap m))).
(** query.go:157-168 DecodeCursor: the outer option is the error, the inner the nil map *)
Definition decode_cursor (s : bytes) : option (option (list (bytes * cval))) :=
  match b64_decode s with
  | None => None
  | Some t => match parse_json t with
              | Some JNull => Some None
              | Some (JObj l) => match json_cval (JObj l) with CMap m => Some (Some m) | _ => None end
              | _ => None
              end
  end.
