(** Model of params.go and query.go.
    Simplification: slices are values (Name sorts the null-column slice in
    place; the builder's own view of that is modelled, the caller's view of the
    same array is not). *)
From Verif Require Import GoBase TypeModel.
Open Scope Z_scope.

(** ** params.go *)
(** params.go:68-85 QueryParamsBuilder *)
Record builder := mkB {
  qb_name : bytes; qb_flags : list Z; qb_pos : Z; qb_enums : list (Z * Z); qb_args : list goany;
  qb_hash : bytes; qb_null : list bytes; qb_limit : Z; qb_offset : Z; qb_cursor : goany }.

(** query.go:13 DefaultPageSize *)
Definition default_page_size : Z := 500.
(** values.NumbersCoalesce(limit, DefaultPageSize): the first non-zero. *)
Definition page_limit (limit : Z) : Z := if limit =? 0 then default_page_size else limit.

(** params.go:88-92 NewQueryParams *)
Definition new_params (q : bytes) : builder := mkB q [] 0 [] [] [] [] 0 0 ANil.

(** params.go:94-103 Reset: nullColumns is not touched. *)
Definition pb_reset (b : builder) : builder := mkB (qb_name b) [] 0 [] [] [] (qb_null b) 0 0 ANil.

(** sort.Strings *)
Definition sort_strings (l : list bytes) : list bytes := fold_right insert_key [] l.

(** params.go:106-144 Name.  [mm] is murmur3's 64-bit sum of what was written;
    sort.Strings sorts the builder's slice in place; the text is cached. *)
Definition is_nil (v : goany) : bool := match v with ANil => true | _ => false end.
Definition pb_text (mm : bytes -> Z) (b : builder) : bytes :=
  qb_name b ++ B "_x" ++ fmt_uint 16 (qb_pos b)
  ++ flat_map (fun e => B "_" ++ fmt_uint 10 (fst e) ++ B "x" ++ fmt_uint 16 (u64 (snd e))) (qb_enums b)
  ++ flat_map (fun f => B "_fx" ++ fmt_int 16 f) (qb_flags b)
  ++ (if negb (is_nil (qb_cursor b)) then B "_c" else if 0 <? qb_offset b then B "_o" else [])
  ++ (if is_empty (qb_null b) then [] else B "_n" ++ fmt_uint 16 (u64 (mm (concat (sort_strings (qb_null b)))))).
Definition pb_name (mm : bytes -> Z) (b : builder) : builder * bytes :=
  if is_empty (qb_hash b)
  then let n := pb_text mm b in
       (mkB (qb_name b) (qb_flags b) (qb_pos b) (qb_enums b) (qb_args b) n (sort_strings (qb_null b)) (qb_limit b) (qb_offset b) (qb_cursor b), n)
  else (b, qb_hash b).

(** 1 << pos on uint64: zero from 64 up. *)
Definition bit (pos : Z) : Z := u64 (Z.shiftl 1 pos).
(** params.go:173-177 checkPage; true: panics *)
Definition check_page (b : builder) : bool := 0 <? qb_limit b.
(** Panicking calls are [None]. *)
(** params.go:163-171 Set *)
Definition pb_set (b : builder) (pos : Z) (v : goany) : option builder :=
  if 63 <? pos then None else if check_page b then None
  else Some (mkB (qb_name b) (qb_flags b) (Z.lor (qb_pos b) (bit pos)) (qb_enums b) (qb_args b ++ [v]) (qb_hash b) (qb_null b) (qb_limit b) (qb_offset b) (qb_cursor b)).
(** params.go:180-186 SetPage *)
Definition pb_page (b : builder) (limit offset : Z) : option builder :=
  if check_page b then None
  else let l := page_limit limit in
       Some (mkB (qb_name b) (qb_flags b) (qb_pos b) (qb_enums b) (qb_args b ++ [AUint32 l; AUint32 offset]) (qb_hash b) (qb_null b) l offset (qb_cursor b)).
(** params.go:194-200 SetCursor *)
Definition pb_cursor (b : builder) (limit pos : Z) (c : goany) : option builder :=
  match pb_set b pos c with
  | None => None
  | Some b => let l := page_limit limit in
              Some (mkB (qb_name b) (qb_flags b) (qb_pos b) (qb_enums b) (qb_args b ++ [AUint32 l]) (qb_hash b) (qb_null b) l (qb_offset b) c)
  end.
(** params.go:208-212 AddArgs *)
Definition pb_add (b : builder) (vs : list goany) : option builder :=
  if check_page b then None
  else Some (mkB (qb_name b) (qb_flags b) (qb_pos b) (qb_enums b) (qb_args b ++ vs) (qb_hash b) (qb_null b) (qb_limit b) (qb_offset b) (qb_cursor b)).
(** params.go:220-228 SetEnum *)
Definition pb_enum (b : builder) (pos v : Z) : option builder :=
  if 63 <? pos then None else if check_page b then None
  else Some (mkB (qb_name b) (qb_flags b) (Z.lor (qb_pos b) (bit pos)) (qb_enums b ++ [(pos, v)]) (qb_args b) (qb_hash b) (qb_null b) (qb_limit b) (qb_offset b) (qb_cursor b)).
(** params.go:242-245 SetFlags, 147-150 SetNullColums *)
Definition pb_flags (b : builder) (fs : list Z) : builder :=
  mkB (qb_name b) fs (qb_pos b) (qb_enums b) (qb_args b) (qb_hash b) (qb_null b) (qb_limit b) (qb_offset b) (qb_cursor b).
Definition pb_null (b : builder) (cols : list bytes) : builder :=
  mkB (qb_name b) (qb_flags b) (qb_pos b) (qb_enums b) (qb_args b) (qb_hash b) cols (qb_limit b) (qb_offset b) (qb_cursor b).
(** params.go:215-217 IsSet *)
Definition pb_is_set (b : builder) (pos : Z) : bool := negb (Z.land (qb_pos b) (bit pos) =? 0).
(** params.go:231-239 GetEnum *)
Fixpoint find_enum (l : list (Z * Z)) (pos : Z) : option Z :=
  match l with [] => None | (p, v) :: r => if p =? pos then Some v else find_enum r pos end.
Definition pb_get_enum (b : builder) (pos : Z) : option Z := find_enum (qb_enums b) pos.

(** A program using one builder: each call, and whether it panics (the builder
    is then as before the call). *)
Inductive call :=
| CSet (pos : Z) (v : goany) | CEnum (pos v : Z) | CAdd (vs : list goany) | CPage (limit offset : Z)
| CCursor (limit pos : Z) (c : goany) | CFlags (fs : list Z) | CNull (cols : list bytes) | CName | CReset.
Definition try_call (mm : bytes -> Z) (b : builder) (c : call) : option builder :=
  match c with
  | CSet p v => pb_set b p v
  | CEnum p v => pb_enum b p v
  | CAdd vs => pb_add b vs
  | CPage l o => pb_page b l o
  | CCursor l p v => pb_cursor b l p v
  | CFlags fs => Some (pb_flags b fs)
  | CNull cols => Some (pb_null b cols)
  | CName => Some (fst (pb_name mm b))
  | CReset => Some (pb_reset b)
  end.
Definition step (mm : bytes -> Z) (b : builder) (c : call) : builder := match try_call mm b c with Some b' => b' | None => b end.
Definition run (mm : bytes -> Z) (q : bytes) (l : list call) : builder := fold_left (step mm) l (new_params q).
Definition name_of (mm : bytes -> Z) (b : builder) : bytes := snd (pb_name mm b).

(** params.go:34-44 GetQueryParams over arguments: a builder or anything else.
    None: panics. *)
Inductive qarg := QP (b : builder) | QV (v : goany).
Fixpoint get_query_params (args : list qarg) : option builder :=
  match args with [] => None | QP b :: _ => Some b | QV _ :: r => get_query_params r end.
(** params.go:253-264 PageParam; None: panics *)
Fixpoint page_param (v : goany) : option Z :=
  match v with
  | AInt z => Some (u32 z)
  | AUint32 z => Some z
  | ANamed _ v => page_param v
  | _ => None
  end.

(** ** query.go *)
(** A *sql.Rows: for each row the outcome of ScanRow (R: the model filled in),
    and what rows.Err() would report when Next returns false. *)
Inductive scan (R : Type) := SRow (r : R) | SFail (e : Z) | SPanic.
Arguments SRow {R}. Arguments SFail {R}. Arguments SPanic {R}.
Record rowsrc (R : Type) := mkSrc { src_rows : list (scan R); src_err : option Z }.
Arguments mkSrc {R}. Arguments src_rows {R}. Arguments src_err {R}.
(** The database: rows or an error, from the text and the arguments it gets. *)
Definition qdb (R : Type) := bytes -> list qarg -> rowsrc R + Z.
Inductive qevent := QQuery (sql : bytes) (args : list qarg) | QScan (row : nat) | QClose.
Inductive outcome (A : Type) := ROk (a : A) | RErr (e : Z) | RPanic.
Arguments ROk {A}. Arguments RErr {A}. Arguments RPanic {A}.

(** query.go:45-52, the loop; rows.Err() is not consulted. *)
Fixpoint scan_loop {R} (n : nat) (rows : list (scan R)) : list qevent * outcome (list R) :=
  match rows with
  | [] => ([], ROk [])
  | SRow r :: rest => let '(t, o) := scan_loop (S n) rest in
                      (QScan n :: t, match o with ROk l => ROk (r :: l) | RErr e => RErr e | RPanic => RPanic end)
  | SFail e :: _ => ([QScan n], RErr e)
  | SPanic :: _ => ([QScan n], RPanic)
  end.
(** query.go:33-54 ExecuteListQuery; the deferred Close runs also on panics. *)
Definition list_query {R} (db : qdb R) (sql : bytes) (args : list qarg) : list qevent * outcome (list R) :=
  match db sql args with
  | inr e => ([QQuery sql args], RErr e)
  | inl src => let '(t, o) := scan_loop 0 (src_rows src) in (QQuery sql args :: t ++ [QClose], o)
  end.

Definition last2 (args : list qarg) : option (qarg * qarg) :=
  match rev args with b :: a :: _ => Some (a, b) | _ => None end.
Definition qa_page_param (a : qarg) : option Z := match a with QV v => page_param v | QP _ => None end.
(** The limit, offset and arguments of a call (query.go:72-87); None: PageParam
    panics. *)
Definition page_args (args : list qarg) : option (Z * Z * list qarg) :=
  match args with
  | [QP b] => Some (qb_limit b, qb_offset b, map QV (qb_args b))
  | [_] | [] => Some (0, 0, args)
  | _ => match last2 args with
         | Some (a, b) => match qa_page_param a, qa_page_param b with
                          | Some l, Some o => Some (l, o, args)
                          | _, _ => None
                          end
         | None => None
         end
  end.
(** query.go:70-102 ExecuteQueryWithPagination: the values given to SetResult. *)
Definition query_paged {R} (db : qdb R) (sql : bytes) (args : list qarg) : list qevent * outcome (list R * bool * Z) :=
  match page_args args with
  | None => ([], RPanic)
  | Some (limit, offset, args) =>
      let '(t, o) := list_query db sql args in
      (t, match o with
          | ROk l => let count := u32 (Z.of_nat (length l)) in
                     let next := limit <=? count in
                     ROk (l, next, if next then u32 (offset + count) else 0)
          | RErr e => RErr e
          | RPanic => RPanic
          end)
  end.
(** query.go:104-131 ExecuteQueryWithCursor: the list and hasNextPage given to
    SetResultWithCursor. *)
Definition cursor_args (args : list qarg) : option (Z * list qarg) :=
  match args with
  | [QP b] => Some (qb_limit b, map QV (qb_args b))
  | [_] | [] => Some (0, args)
  | _ => match last2 args with
         | Some (_, b) => match qa_page_param b with Some l => Some (l, args) | None => None end
         | None => None
         end
  end.
Definition query_cursor {R} (db : qdb R) (sql : bytes) (args : list qarg) : list qevent * outcome (list R * bool) :=
  match cursor_args args with
  | None => ([], RPanic)
  | Some (limit, args) =>
      let '(t, o) := list_query db sql args in
      (t, match o with
          | ROk l => ROk (l, limit <=? u32 (Z.of_nat (length l)))
          | RErr e => RErr e
          | RPanic => RPanic
          end)
  end.
(** query.go:135-149 ExecuteQuery *)
Definition query_all {R} (db : qdb R) (sql : bytes) (args : list qarg) : list qevent * outcome (list R * bool * Z) :=
  let args := match args with [QP b] => map QV (qb_args b) | _ => args end in
  let '(t, o) := list_query db sql args in
  (t, match o with ROk l => ROk (l, false, 0) | RErr e => RErr e | RPanic => RPanic end).
(** query.go:22-30 QueryRow: one row; sql.ErrNoRows is error 0.  QueryRowContext
    reports errors (including rows.Err and no row) through Scan. *)
Definition query_row {R} (db : qdb R) (sql : bytes) (args : list qarg) : outcome R :=
  match db sql args with
  | inr e => RErr e
  | inl src => match src_rows src with
               | [] => RErr (match src_err src with Some e => e | None => 0 end)
               | SRow r :: _ => ROk r
               | SFail e :: _ => RErr e
               | SPanic :: _ => RPanic
               end
  end.

(** encoding/base64 RawURLEncoding *)
Definition b64_char (n : Z) : ascii :=
  ascii_of_nat (Z.to_nat (if n <? 26 then n + 65 else if n <? 52 then n + 71 else if n <? 62 then n - 4 else if n =? 62 then 45 else 95)).
Definition b64_val (c : ascii) : option Z :=
  let n := Z.of_nat (nat_of_ascii c) in
  if (65 <=? n) && (n <=? 90) then Some (n - 65) else if (97 <=? n) && (n <=? 122) then Some (n - 71)
  else if (48 <=? n) && (n <=? 57) then Some (n + 4) else if n =? 45 then Some 62 else if n =? 95 then Some 63 else None.
Definition byte (c : ascii) : Z := Z.of_nat (nat_of_ascii c).
Definition to_byte (n : Z) : ascii := ascii_of_nat (Z.to_nat (n mod 256)).
(** Encoding.Encode without padding *)
Fixpoint b64_encode (s : bytes) : bytes :=
  match s with
  | a :: b :: c :: r => let v := byte a * 65536 + byte b * 256 + byte c in
                        b64_char (v / 262144) :: b64_char (v / 4096 mod 64) :: b64_char (v / 64 mod 64) :: b64_char (v mod 64) :: b64_encode r
  | [a; b] => let v := byte a * 65536 + byte b * 256 in [b64_char (v / 262144); b64_char (v / 4096 mod 64); b64_char (v / 64 mod 64)]
  | [a] => let v := byte a * 65536 in [b64_char (v / 262144); b64_char (v / 4096 mod 64)]
  | [] => []
  end.
(** Encoding.Decode, not Strict: new lines are skipped, unused trailing bits
    ignored, one left-over character is an error. *)
Definition not_newline (c : ascii) : bool := negb ((nat_of_ascii c =? 10)%nat || (nat_of_ascii c =? 13)%nat).
Fixpoint b64_vals (s : bytes) : option (list Z) :=
  match s with
  | [] => Some []
  | c :: r => match b64_val c, b64_vals r with Some v, Some l => Some (v :: l) | _, _ => None end
  end.
Fixpoint b64_groups (l : list Z) : option bytes :=
  match l with
  | [] => Some []
  | [_] => None
  | [a; b] => Some [to_byte (a * 4 + b / 16)]
  | [a; b; c] => Some [to_byte (a * 4 + b / 16); to_byte (b * 16 + c / 4)]
  | a :: b :: c :: d :: r =>
      match b64_groups r with
      | Some t => Some (to_byte (a * 4 + b / 16) :: to_byte (b * 16 + c / 4) :: to_byte (c * 64 + d) :: t)
      | None => None
      end
  end.
Definition b64_decode (s : bytes) : option bytes :=
  match b64_vals (filter not_newline s) with Some l => b64_groups l | None => None end.
