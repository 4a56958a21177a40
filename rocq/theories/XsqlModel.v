(** Model of package xsql: the SQL statement builder.
    Source: /repo/xsql/stmt.go, dialect.go, cache.go, pool.go, util.go.

    Simplifications common to the whole file:
    - a *Stmt is a value here; sharing of the same object is modelled in
      XsqlWorld.v;
    - slice capacities are not modelled: append/copy in addChunk and Clone copy
      elements into arrays owned by the statement;
    - bytebufferpool buffers never fail to grow (WriteString's panic branch,
      stmt.go:513-518, is dead). *)
From Verif Require Import GoBase.
Open Scope Z_scope.

(** stmt.go:446-452 *)
Record chunk := mkChunk {
  ck_pos : Z; ck_low : nat; ck_high : nat; ck_has : bool; ck_argLen : nat }.

(** stmt.go:477-487.  [st_dialect] is an index into the table of dialects
    (0 = NoDialect, 1 = Postgres, 2 = SQLServer, dialect.go:89-96); [st_dest]
    holds pointers, identified by numbers. *)
Record stmt := mkStmt {
  st_name : bytes; st_dialect : nat; st_pos : Z; st_chunks : list chunk;
  st_buf : bytes; st_sql : bytes; st_args : list goany; st_dest : list Z;
  st_nl : bool }.

Definition set_name (q : stmt) n := mkStmt n (st_dialect q) (st_pos q) (st_chunks q) (st_buf q) (st_sql q) (st_args q) (st_dest q) (st_nl q).
Definition set_dialect (q : stmt) d := mkStmt (st_name q) d (st_pos q) (st_chunks q) (st_buf q) (st_sql q) (st_args q) (st_dest q) (st_nl q).
Definition set_pos (q : stmt) p := mkStmt (st_name q) (st_dialect q) p (st_chunks q) (st_buf q) (st_sql q) (st_args q) (st_dest q) (st_nl q).
Definition set_chunks (q : stmt) c := mkStmt (st_name q) (st_dialect q) (st_pos q) c (st_buf q) (st_sql q) (st_args q) (st_dest q) (st_nl q).
Definition set_buf (q : stmt) b := mkStmt (st_name q) (st_dialect q) (st_pos q) (st_chunks q) b (st_sql q) (st_args q) (st_dest q) (st_nl q).
Definition set_sql (q : stmt) s := mkStmt (st_name q) (st_dialect q) (st_pos q) (st_chunks q) (st_buf q) s (st_args q) (st_dest q) (st_nl q).
Definition set_args (q : stmt) a := mkStmt (st_name q) (st_dialect q) (st_pos q) (st_chunks q) (st_buf q) (st_sql q) a (st_dest q) (st_nl q).
Definition set_dest (q : stmt) d := mkStmt (st_name q) (st_dialect q) (st_pos q) (st_chunks q) (st_buf q) (st_sql q) (st_args q) d (st_nl q).
Definition set_nl (q : stmt) b := mkStmt (st_name q) (st_dialect q) (st_pos q) (st_chunks q) (st_buf q) (st_sql q) (st_args q) (st_dest q) b.

(** Clause positions, stmt.go:1256-1280: [_ = iota] then [100 * iota]. *)
Definition posStart := 100.
Definition posWith := 200.
Definition posInsert := 300.
Definition posInsertFields := 400.
Definition posValues := 500.
Definition posDelete := 600.
Definition posUpdate := 700.
Definition posSet := 800.
Definition posSelect := 900.
Definition posInto := 1000.
Definition posFrom := 1100.
Definition posWhere := 1200.
Definition posGroupBy := 1300.
Definition posHaving := 1400.
Definition posUnion := 1500.
Definition posOrderBy := 1600.
Definition posLimit := 1700.
Definition posOffset := 1800.
Definition posReturning := 1900.
Definition posEnd := 2000.

(** Go's copy(dst[k:], src) with k <= len(dst): overwrites
    min(len(dst)-k, len(src)) elements. *)
Definition copy_at {A} (l : list A) (k : nat) (src : list A) : list A :=
  firstn k l ++ firstn (length l - k) src ++ skipn (k + length src) l.

(** util.go:3-15, insertAt.  None: negative index, i.e. a slice bounds panic.
    The first [copy] reads from the array it writes to (memmove). *)
Definition insert_at {A} (dest src : list A) (index : Z) : option (list A) :=
  match src with
  | [] => Some dest
  | _ =>
      let oldLen := length dest in
      let d1 := dest ++ src in
      if index <? Z.of_nat oldLen then
        if index <? 0 then None
        else
          let k := Z.to_nat index in
          let d2 := copy_at d1 (k + length src) (skipn k d1) in
          Some (copy_at d2 k src)
      else Some d1
  end.

(** Result of addChunk's search loop, stmt.go:1070-1113. *)
Inductive scan_res := SMatch (i tail : nat) | SInsert (i tail : nat).

(** The loop itself: chunks are visited from the last one to the first one
    ([rc] is the reversed remaining prefix, so the current index is its
    length), [tail] is argTail. *)
Fixpoint scan (pos : Z) (rc : list chunk) (tail : nat) : scan_res :=
  match rc with
  | [] => SInsert 0 tail
  | c :: r =>
      if ck_pos c =? pos then SMatch (length r) tail
      else if ck_pos c <? pos then SInsert (S (length r)) tail
      else scan pos r (tail + ck_argLen c)
  end.

(** stmt.go:981-985 Invalidate *)
Definition invalidate (q : stmt) : stmt := set_sql q [].

(** stmt.go:1149-1155, the tail of addChunk. *)
Definition finish_chunk (q : stmt) (args : list goany) (tail index : nat) : option (stmt * nat) :=
  match args with
  | [] => Some (invalidate q, index)
  | _ =>
      match insert_at (st_args q) args (Z.of_nat (length (st_args q)) - Z.of_nat tail) with
      | None => None
      | Some a => Some (invalidate (set_args q a), index)
      end
  end.

(** stmt.go:1128-1146: insertion of a new chunk at [index]. *)
Definition insert_chunk (l : list chunk) (index : nat) (c : chunk) : list chunk :=
  firstn index l ++ c :: skipn index l.

Definition update_chunk (l : list chunk) (i : nat) (c : chunk) : list chunk :=
  firstn i l ++ c :: skipn (S i) l.

(** stmt.go:1058-1156 addChunk.  None = run-time panic. *)
Definition add_chunk (q0 : stmt) (pos : Z) (clause expr : bytes) (args : list goany)
           (sep : bytes) : option (stmt * nat) :=
  let q := set_pos q0 pos in
  let argLen := length args in
  let bufLow := length (st_buf q) in
  match scan pos (rev (st_chunks q)) 0 with
  | SMatch i tail =>
      match nth_error (st_chunks q) i with
      | None => None
      | Some c =>
          if is_empty expr then
            (* 1079-1085 *)
            if (0 <? argLen)%nat then
              let k := Z.of_nat (length (st_args q)) - Z.of_nat tail - Z.of_nat (ck_argLen c) in
              if k <? 0 then None
              else Some (set_args q (copy_at (st_args q) (Z.to_nat k) args), i)
            else Some (q, i)
          else
            let buf1 := st_buf q ++ (if ck_has c then sep else B " ") in
            let buf2 := buf1 ++ expr in
            if (ck_high c =? bufLow)%nat then
              (* 1092-1099: extend the chunk *)
              let c' := mkChunk (ck_pos c) (ck_low c) (length buf2) true (ck_argLen c + argLen) in
              finish_chunk (set_chunks (set_buf q buf2) (update_chunk (st_chunks q) i c')) args tail i
            else
              (* 1100-1104 and 1115-1147 with addClause = false *)
              let c' := mkChunk pos bufLow (length buf2) true argLen in
              finish_chunk (set_chunks (set_buf q buf2) (insert_chunk (st_chunks q) (S i) c')) args tail (S i)
      end
  | SInsert index tail =>
      (* 1115-1147 *)
      let kw := if is_empty clause then []
                else (if st_nl q then B "
" else []) ++ clause ++ (if is_empty expr then [] else B " ") in
      let buf2 := st_buf q ++ kw ++ expr in
      let c' := mkChunk pos bufLow (length buf2) (negb (is_empty expr)) argLen in
      finish_chunk (set_chunks (set_buf q buf2) (insert_chunk (st_chunks q) index c')) args tail index
  end.

(** A call of addChunk whose index is not used. *)
Definition addc (q : stmt) pos clause expr args sep : option stmt :=
  match add_chunk q pos clause expr args sep with
  | None => None
  | Some (q', _) => Some q'
  end.

Definition bind {A B} (o : option A) (f : A -> option B) : option B :=
  match o with None => None | Some a => f a end.
Notation "'do' x <- o ; e" := (bind o (fun x => e)) (at level 200, x pattern, o at level 100, e at level 200).

(** The text of an IN list, stmt.go:714-731. *)
Fixpoint in_marks (n : nat) : bytes :=
  match n with
  | O => []
  | S O => B "?"
  | S m => B "?," ++ in_marks m
  end.
Definition in_text (n : nat) : bytes := B "IN (" ++ in_marks n ++ B ")".

(** stmt.go:1041-1055 join: the expression text. *)
Definition join_text (joinType table on : bytes) : bytes :=
  joinType ++ table ++ B " ON (" ++ on ++ B ")".

(** stmt.go:671-688 SetExpr *)
Fixpoint find_verb (cs : list chunk) : Z :=
  match cs with
  | [] => 0
  | c :: r => if (ck_pos c =? posInsert) || (ck_pos c =? posUpdate) then ck_pos c else find_verb r
  end.
Definition set_expr (q : stmt) (field expr : bytes) (args : list goany) : option stmt :=
  let p := find_verb (st_chunks q) in
  if p =? posInsert then
    do q1 <- addc q posInsertFields [] field [] (B ", ");
    addc q1 posValues [] expr args (B ", ")
  else if p =? posUpdate then
    addc q posSet (B "SET") (field ++ B "=" ++ expr) args (B ", ")
  else Some q.

(** stmt.go:619-626 InsertInto *)
Definition insert_into (q : stmt) (table : bytes) : option stmt :=
  do q1 <- addc q posInsert (B "INSERT INTO") table [] (B ", ");
  do q2 <- addc q1 (posInsertFields - 1) (B "(") [] [] [];
  do q3 <- addc q2 (posValues - 1) (B ") VALUES (") [] [] [];
  do q4 <- addc q3 (posValues + 1) (B ")") [] [] [];
  Some (set_pos q4 posInsertFields).

(** Position of the last chunk. *)
Fixpoint last_pos (cs : list chunk) : option Z :=
  match cs with
  | [] => None
  | [c] => Some (ck_pos c)
  | _ :: r => last_pos r
  end.

(** stmt.go:900-907 Clause *)
Definition clause (q : stmt) (expr : bytes) (args : list goany) : option stmt :=
  let p := match last_pos (st_chunks q) with None => posStart | Some p => p + 10 end in
  addc q p expr [] args (B ", ").

(** WriteString to the statement's buffer and extension of the chunk [index]
    to the end of the buffer (stmt.go:841, 847-849 and 878, 884-885). *)
Definition write_tail (q : stmt) (index : nat) (text : bytes) : option stmt :=
  match nth_error (st_chunks q) index with
  | None => None
  | Some c =>
      let buf := st_buf q ++ text in
      Some (set_chunks (set_buf q buf)
             (update_chunk (st_chunks q) index
                (mkChunk (ck_pos c) (ck_low c) (length buf) (ck_has c) (ck_argLen c))))
  end.

(** stmt.go:834-854 SubQuery, given the inner statement's text and arguments. *)
Definition sub_query_raw (q : stmt) (prefix suffix text : bytes) (iargs : list goany) : option stmt :=
  let delimiter := if st_pos q =? posWhere then B " AND " else B ", " in
  do (q1, index) <- add_chunk q (st_pos q) [] prefix iargs delimiter;
  write_tail q1 index (text ++ suffix).

(** stmt.go:863-890 Union, given the inner statement's text and arguments. *)
Definition union_raw (q : stmt) (all : bool) (text : bytes) (iargs : list goany) : option stmt :=
  let p := match last_pos (st_chunks q) with
           | None => posUnion
           | Some l => if posUnion <=? l then l + 1 else posUnion
           end in
  do (q1, index) <- add_chunk q p (if all then B "UNION ALL " else B "UNION ") [] iargs [];
  write_tail q1 index text.

(** stmt.go:813-816 With *)
Definition with_raw (q : stmt) (name text : bytes) (iargs : list goany) : option stmt :=
  do q1 <- addc q posWith (B "WITH") [] [] [];
  sub_query_raw q1 (name ++ B " AS (") (B ")") text iargs.

(** stmt.go:783-808 Limit, Offset, Paginate.  (page-1)*pageSize is a 64-bit
    int multiplication. *)
Definition limit (q : stmt) (a : goany) := addc q posLimit (B "LIMIT ?") [] [a] [].
Definition offset (q : stmt) (a : goany) := addc q posOffset (B "OFFSET ?") [] [a] [].
Definition paginate (q : stmt) (page pageSize : Z) : option stmt :=
  let page := if page <? 1 then 1 else page in
  let pageSize := if pageSize <? 1 then 1 else pageSize in
  do q1 <- (if 1 <? page then offset q (AInt (i64 ((page - 1) * pageSize))) else Some q);
  limit q1 (AInt pageSize).

(** stmt.go:506-510 newRow (the embedded *Stmt is passed separately). *)
Record row := mkRow { row_first : bool; row_notEmpty : bool }.

(** stmt.go:1174-1197 NewRow *)
Fixpoint row_is_first (rc : list chunk) : bool :=
  match rc with
  | [] => true
  | c :: r => if ck_pos c =? posValues then false
              else if ck_pos c <? posValues then true
              else row_is_first r
  end.
Definition new_row (q : stmt) : option (stmt * row) :=
  let first := row_is_first (rev (st_chunks q)) in
  if first then Some (q, mkRow true false)
  else do q1 <- addc q posValues [] (B " ") [] (B " ), (");
       Some (q1, mkRow false false).

(** stmt.go:1228-1247 newRow.SetExpr *)
Definition row_set_expr (q : stmt) (r : row) (field expr : bytes) (args : list goany)
  : option (stmt * row) :=
  let r' := mkRow (row_first r) true in
  if row_first r then
    do q1 <- addc q posInsertFields [] field [] (B ", ");
    do q2 <- addc q1 posValues [] expr args (B ", ");
    Some (q2, r')
  else
    do q1 <- addc q posValues [] expr args (if row_notEmpty r then B ", " else []);
    Some (q1, r').

Fixpoint row_sets (q : stmt) (r : row) (l : list (bytes * bytes * list goany)) : option stmt :=
  match l with
  | [] => Some q
  | (f, e, a) :: l' => do (q1, r1) <- row_set_expr q r f e a; row_sets q1 r1 l'
  end.

(** Fields of a struct passed to Bind: an embedded struct, or a leaf field with
    its db tag and address (stmt.go:1020-1038; reflect.Kind tests are resolved). *)
Inductive bfield := BEmbedded (fs : list bfield) | BLeaf (tag : bytes) (addr : Z).

(** strings.Split(tag, ",")[0] *)
Definition tag_name (tag : bytes) : bytes := hd [] (split_on (ch 44) tag).

(** stmt.go:585-594 To *)
Definition to_dest (q : stmt) (ds : list Z) : stmt := set_dest q (st_dest q ++ ds).

Fixpoint bind_field (f : bfield) (q : stmt) : option stmt :=
  match f with
  | BEmbedded fs =>
      (fix go (l : list bfield) (q : stmt) : option stmt :=
         match l with [] => Some q | g :: l' => do q1 <- bind_field g q; go l' q1 end) fs q
  | BLeaf tag addr =>
      if is_empty tag then Some q
      else do q1 <- addc q posSelect (B "SELECT") (tag_name tag) [] (B ", ");
           Some (to_dest q1 [addr])
  end.
Fixpoint bind_fields (fs : list bfield) (q : stmt) : option stmt :=
  match fs with [] => Some q | f :: fs' => do q1 <- bind_field f q; bind_fields fs' q1 end.

(** The builder API, one constructor per method.  Sub-statements are given by
    their dialect-neutral text and their arguments (see XsqlWorld for the full
    SubQuery/Union/With on statement objects). *)
Inductive bcall :=
| CSelect (e : bytes) (a : list goany)
| CReturning (e : bytes)
| CTo (ds : list Z)
| CUpdate (t : bytes)
| CInsertInto (t : bytes)
| CDeleteFrom (t : bytes)
| CSet (f : bytes) (v : goany)
| CSetExpr (f e : bytes) (a : list goany)
| CFrom (e : bytes) (a : list goany)
| CWhere (e : bytes) (a : list goany)
| CIn (a : list goany)
| CJoin (t on : bytes)
| CLeftJoin (t on : bytes)
| CRightJoin (t on : bytes)
| CFullJoin (t on : bytes)
| COrderBy (es : list bytes)
| CGroupBy (e : bytes)
| CHaving (e : bytes) (a : list goany)
| CLimit (v : goany)
| COffset (v : goany)
| CPaginate (page size : Z)
| CExpr (e : bytes) (a : list goany)
| CClause (e : bytes) (a : list goany)
| CWith (name text : bytes) (a : list goany)
| CSubQuery (prefix suffix text : bytes) (a : list goany)
| CUnion (all : bool) (text : bytes) (a : list goany)
| CNewRow (sets : list (bytes * bytes * list goany))
| CBind (fs : list bfield)
| CUseNewLines (b : bool)
| CSetName (n : bytes)
| CInvalidate.

(** One builder method call; the cited lines are those of stmt.go. *)
Definition call (q : stmt) (c : bcall) : option stmt :=
  match c with
  | CSelect e a => addc q posSelect (B "SELECT") e a (B ", ")            (* 552 *)
  | CReturning e => addc q posReturning (B "RETURNING") e [] (B ", ")    (* 558 *)
  | CTo ds => Some (to_dest q ds)                                        (* 585 *)
  | CUpdate t => addc q posUpdate (B "UPDATE") t [] (B ", ")             (* 605 *)
  | CInsertInto t => insert_into q t                                     (* 619 *)
  | CDeleteFrom t => addc q posDelete (B "DELETE FROM") t [] (B ", ")    (* 633 *)
  | CSet f v => set_expr q f (B "?") [v]                                 (* 661 *)
  | CSetExpr f e a => set_expr q f e a                                   (* 671 *)
  | CFrom e a => addc q posFrom (B "FROM") e a (B ", ")                  (* 691 *)
  | CWhere e a => addc q posWhere (B "WHERE") e a (B " AND ")            (* 704 *)
  | CIn a => addc q posWhere [] (in_text (length a)) a (B " ")           (* 714 *)
  | CJoin t on => addc q posFrom [] (join_text (B "JOIN ") t on) [] (B " ")            (* 736 *)
  | CLeftJoin t on => addc q posFrom [] (join_text (B "LEFT JOIN ") t on) [] (B " ")   (* 744 *)
  | CRightJoin t on => addc q posFrom [] (join_text (B "RIGHT JOIN ") t on) [] (B " ") (* 752 *)
  | CFullJoin t on => addc q posFrom [] (join_text (B "FULL JOIN ") t on) [] (B " ")   (* 760 *)
  | COrderBy es => addc q posOrderBy (B "ORDER BY") (join (B ", ") es) [] (B ", ")     (* 766 *)
  | CGroupBy e => addc q posGroupBy (B "GROUP BY") e [] (B ", ")         (* 772 *)
  | CHaving e a => addc q posHaving (B "HAVING") e a (B " AND ")         (* 778 *)
  | CLimit v => limit q v                                                (* 784 *)
  | COffset v => offset q v                                              (* 790 *)
  | CPaginate p s => paginate q p s                                      (* 796 *)
  | CExpr e a => addc q (st_pos q) [] e a (B ", ")                       (* 823 *)
  | CClause e a => clause q e a                                          (* 900 *)
  | CWith n t a => with_raw q n t a                                      (* 813 *)
  | CSubQuery p s t a => sub_query_raw q p s t a                         (* 834 *)
  | CUnion all t a => union_raw q all t a                                (* 863 *)
  | CNewRow sets => do (q1, r) <- new_row q; row_sets q1 r sets          (* 1174 *)
  | CBind fs => bind_fields fs q                                         (* 1020 *)
  | CUseNewLines b => Some (set_nl q b)                                  (* 490 *)
  | CSetName n => Some (set_name q n)                                    (* 501 *)
  | CInvalidate => Some (invalidate q)                                   (* 981 *)
  end.

Fixpoint calls (q : stmt) (cs : list bcall) : option stmt :=
  match cs with
  | [] => Some q
  | c :: r => do q1 <- call q c; calls q1 r
  end.

(** ** Rendering *)

(** buf.B[low:high]; None = bounds panic. *)
Definition slice (b : bytes) (low high : nat) : option bytes :=
  if (low <=? high)%nat && (high <=? length b)%nat
  then Some (firstn (high - low) (skipn low b)) else None.

Definition c_bs := ch 92.   (* backslash *)
Definition c_qm := ch 63.   (* ? *)
Definition c_dollar := ch 36.

(** dialect.go:185-221 writePg, the loop.  [s] is the whole input, [rest] the
    part still to be visited, [p] its position. Writes to a strings.Builder
    never fail, so the error branches are dead. *)
Fixpoint pg_loop (s rest : bytes) (p start : nat) (argNo : Z) (out : bytes)
  : nat * Z * bytes :=
  match rest with
  | [] => (start, argNo, out)
  | r :: rest' =>
      if (p <? start)%nat then pg_loop s rest' (S p) start argNo out
      else if ascii_dec r c_bs then
        match rest' with
        | r2 :: _ =>
            if ascii_dec r2 c_qm then
              pg_loop s rest' (S p) (p + 2) argNo
                (out ++ firstn (p - start) (skipn start s) ++ [c_qm])
            else pg_loop s rest' (S p) start argNo out
        | [] => pg_loop s rest' (S p) start argNo out
        end
      else if ascii_dec r c_qm then
        pg_loop s rest' (S p) (p + 1) (argNo + 1)
          (out ++ firstn (p - start) (skipn start s) ++ [c_dollar] ++ itoa argNo)
      else pg_loop s rest' (S p) start argNo out
  end.

Definition write_pg (argNo : Z) (s out : bytes) : Z * bytes :=
  let '(start, argNo', out') := pg_loop s s 0 0 argNo out in
  (argNo', if (start <? length s)%nat then out' ++ skipn start s else out').

(** stmt.go:919-937, the loop of String; [first] is n == 0. *)
Fixpoint render_loop (pg : bool) (buf : bytes) (first : bool) (pos argNo : Z)
         (cs : list chunk) (out : bytes) : option bytes :=
  match cs with
  | [] => Some out
  | c :: r =>
      let out1 := if negb first && (pos <? ck_pos c) then out ++ B " " else out in
      match slice buf (ck_low c) (ck_high c) with
      | None => None
      | Some s =>
          if (0 <? ck_argLen c)%nat && pg then
            let '(argNo', out2) := write_pg argNo s out1 in
            render_loop pg buf false (ck_pos c) argNo' r out2
          else render_loop pg buf false (ck_pos c) argNo r (out1 ++ s)
      end
  end.

(** strings.Trim(bstr, "\n\r\t ") *)
Definition sql_ws : bytes := [ch 10; ch 13; ch 9; ch 32].

(** What String() computes when nothing is cached (stmt.go:919-938). *)
Definition render (pg : bool) (q : stmt) : option bytes :=
  match render_loop pg (st_buf q) true 0 1 (st_chunks q) [] with
  | None => None
  | Some s => Some (trim sql_ws s)
  end.

(** ** Dialects and the cache of rendered statements *)

(** dialect.go:83-87; the sync.Map is an association list, newest first. *)
Record dialect := mkDialect { d_provider : bytes; d_cache : list (bytes * bytes); d_nl : bool }.

Fixpoint assoc (k : bytes) (l : list (bytes * bytes)) : option bytes :=
  match l with
  | [] => None
  | (k', v) :: r => if beqb k k' then Some v else assoc k r
  end.
(** cache.go:9-16 GetCachedQuery, cache.go:18-20 PutCachedQuery *)
Definition get_cached (d : dialect) (k : bytes) : option bytes := assoc k (d_cache d).
Definition put_cached (d : dialect) (k v : bytes) : dialect :=
  mkDialect (d_provider d) ((k, v) :: d_cache d) (d_nl d).

Definition is_pg (d : dialect) : bool := beqb (d_provider d) (B "postgres").

(** stmt.go:910-944 String, with the dialect as explicit state. *)
Definition cache_key (q : stmt) : bytes := strings_coalesce (st_name q) (st_buf q).
Definition stmt_string (d : dialect) (q : stmt) : option (dialect * stmt * bytes) :=
  if is_empty (st_sql q) then
    match get_cached d (cache_key q) with
    | Some s => Some (d, set_sql q s, s)
    | None =>
        match render (is_pg d) q with
        | None => None
        | Some s => Some (put_cached d (cache_key q) s, set_sql q s, s)
        end
    end
  else Some (d, q, st_sql q).

(** cache.go:23-30 GetOrCreateQuery for a builder of the same dialect.
    [create] is the statement that the callback would return. The boolean says
    whether the callback was called. *)
Definition get_or_create (d : dialect) (name : bytes) (create : stmt)
  : option (dialect * bytes * bool) :=
  match get_cached d name with
  | Some s => Some (d, s, false)
  | None =>
      match stmt_string d (set_name create name) with
      | None => None
      | Some (d', _, s) => Some (d', s, true)
      end
  end.

(** ** Pool *)

(** pool.go:13-17 newStmt *)
Definition new_stmt : stmt := mkStmt [] 0 0 [] [] [] [] [] false.

(** pool.go:19-27 getStmt on the object [r] handed out by the pool. *)
Definition get_stmt (r : stmt) (did : nat) (d : dialect) : stmt :=
  mkStmt [] did (st_pos r) (st_chunks r) [] [] (st_args r) (st_dest r) (d_nl d).

(** pool.go:29-50 reuseStmt *)
Definition reuse_stmt (q : stmt) : stmt :=
  mkStmt [] (st_dialect q) (st_pos q) [] [] [] [] [] (st_nl q).

(** dialect.go:132-182: the statement constructors. *)
Inductive ctor :=
| KNew (verb : bytes) (a : list goany)
| KWith (name text : bytes) (a : list goany)
| KFrom (e : bytes) (a : list goany)
| KSelect (e : bytes) (a : list goany)
| KUpdate (t : bytes)
| KInsertInto (t : bytes)
| KDeleteFrom (t : bytes).

Definition construct (q : stmt) (k : ctor) : option stmt :=
  match k with
  | KNew v a => addc q posSelect v [] a (B ", ")
  | KWith n t a => call q (CWith n t a)
  | KFrom e a => call q (CFrom e a)
  | KSelect e a => call q (CSelect e a)
  | KUpdate t => call q (CUpdate t)
  | KInsertInto t => call q (CInsertInto t)
  | KDeleteFrom t => call q (CDeleteFrom t)
  end.

(** dialect d, object r from the pool: d.Ctor(...).Call1(...)...  *)
Definition build (r : stmt) (did : nat) (d : dialect) (k : ctor) (cs : list bcall) : option stmt :=
  do q <- construct (get_stmt r did d) k; calls q cs.

(** stmt.go:998-1012 Clone: an object from the pool receives chunks, args,
    dest, buffer and sql; name, position and new-line option are not copied. *)
Definition clone (r : stmt) (d : dialect) (q : stmt) : option stmt :=
  let s := get_stmt r (st_dialect q) d in
  do a <- insert_at (st_args s) (st_args q) 0;
  do ds <- insert_at (st_dest s) (st_dest q) 0;
  Some (mkStmt (st_name s) (st_dialect s) (st_pos s) (st_chunks s ++ st_chunks q)
               (st_buf s ++ st_buf q) (st_sql q) a ds (st_nl s)).

(** ** What a user sees *)

(** String(), Args() and Dest() of a statement (stmt.go:910-944, 957-959,
    972-974), given the dialect's cache. *)
Definition shown (d : dialect) (q : stmt) : option (bytes * list goany * list Z) :=
  do (_, s) <- stmt_string d q; Some (s, st_args q, st_dest q).

(** A whole statement: d.Ctor(...).Call1(...)... then String(), Args(), Dest();
    None = some call panicked. *)
Definition observe (r : stmt) (did : nat) (d : dialect) (k : ctor) (cs : list bcall)
  : option (bytes * list goany * list Z) :=
  do q <- build r did d k cs; shown d q.
