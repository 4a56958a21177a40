(** Vocabulary of the theorems on QueryParams and list queries. *)
From Verif Require Import GoBase TypeModel ParamModel.
Open Scope Z_scope.

(** ** Builder programs *)
Definition uint32_ok (z : Z) : Prop := 0 <= z < 2 ^ 32.
Definition int32_ok (z : Z) : Prop := - 2 ^ 31 <= z < 2 ^ 31.
(** The arguments have their Go types. *)
Definition call_ok (c : call) : Prop :=
  match c with
  | CSet p _ => uint32_ok p
  | CEnum p v => uint32_ok p /\ int32_ok v
  | CPage l o => uint32_ok l /\ uint32_ok o
  | CCursor l p _ => uint32_ok l /\ uint32_ok p
  | CFlags fs => Forall int32_ok fs
  | CAdd _ | CNull _ | CName | CReset => True
  end.
(** Calls that must come last. *)
Definition is_paging (c : call) : bool := match c with CPage _ _ | CCursor _ _ _ => true | _ => false end.
(** A call is refused when its position is above 63, or when it adds arguments
    after the page. *)
Definition refused (paged : bool) (c : call) : bool :=
  match c with
  | CSet p _ | CEnum p _ | CCursor _ p _ => (63 <? p) || paged
  | CAdd _ | CPage _ _ => paged
  | CFlags _ | CNull _ | CName | CReset => false
  end.
(** The calls since the last Reset that were not refused. *)
Definition accepted (l : list call) : list call :=
  fold_left (fun acc c => match c with
                          | CReset => []
                          | _ => if refused (existsb is_paging acc) c then acc else acc ++ [c]
                          end) l [].
(** What one call contributes. *)
Definition sets (p : Z) (c : call) : Prop :=
  match c with CSet q _ | CEnum q _ | CCursor _ q _ => q = p | _ => False end.
Definition enums_of (c : call) : list (Z * Z) := match c with CEnum p v => [(p, v)] | _ => [] end.
Definition limit_used (l : Z) : Z := if l =? 0 then 500 else l.
Definition args_of (c : call) : list goany :=
  match c with
  | CSet _ v => [v]
  | CAdd vs => vs
  | CPage l o => [AUint32 (limit_used l); AUint32 o]
  | CCursor l _ v => [v; AUint32 (limit_used l)]
  | _ => []
  end.
Definition flags_of (acc : list Z) (c : call) : list Z := match c with CFlags fs => fs | _ => acc end.
Definition nulls_of (acc : list bytes) (c : call) : list bytes := match c with CNull cs => cs | _ => acc end.
Definition enums_used (l : list call) := flat_map enums_of l.
Definition args_used (l : list call) := flat_map args_of l.
Definition flags_used (l : list call) := fold_left flags_of l [].
Definition nulls_used (l : list call) := fold_left nulls_of l [].
(** What the name says about paging: by a cursor, by an offset, neither (no
    page, or the first one). *)
Inductive paging := ByCursor | ByOffset | FirstOrNone.
Definition paging_of (acc : paging) (c : call) : paging :=
  match c with
  | CPage _ o => if 0 <? o then ByOffset else acc
  | CCursor _ _ ANil => acc
  | CCursor _ _ _ => ByCursor
  | _ => acc
  end.
Definition paging_used (l : list call) := fold_left paging_of l FirstOrNone.
Definition no_name (l : list call) : Prop := ~ In CName l.
Definition no_null (l : list call) : Prop := forall cs, ~ In (CNull cs) l.
(** Two builders no caller can tell apart now (without further calls). *)
Definition same_view (mm : bytes -> Z) (a b : builder) : Prop :=
  name_of mm a = name_of mm b /\ qb_args a = qb_args b /\ qb_flags a = qb_flags b /\ qb_null a = qb_null b /\
  (qb_limit a, qb_offset a) = (qb_limit b, qb_offset b) /\ qb_cursor a = qb_cursor b /\
  (forall p, 0 <= p -> pb_is_set a p = pb_is_set b p) /\ (forall p, pb_get_enum a p = pb_get_enum b p).

(** ** Databases that apply LIMIT and OFFSET (or a cursor) to a fixed result *)
Definition ok_rows {R} (l : list R) : rowsrc R := mkSrc (map SRow l) None.
(** The last two arguments are LIMIT and OFFSET. *)
Definition offset_db {R} (all : list R) (db : qdb R) (sql : bytes) : Prop :=
  forall pre lim off, db sql (pre ++ [QV (AUint32 lim); QV (AUint32 off)]) =
                      inl (ok_rows (firstn (Z.to_nat lim) (skipn (Z.to_nat off) all))).
(** Pages fetched one after the other: each starts at the offset reported by the
    one before, until none is left; [fetch off] runs one query. *)
Inductive follow {R} (fetch : Z -> outcome (list R * bool * Z)) : Z -> list (list R) -> Prop :=
| follow_last off l n : fetch off = ROk (l, false, n) -> follow fetch off [l]
| follow_more off l n ps : fetch off = ROk (l, true, n) -> follow fetch n ps -> follow fetch off (l :: ps).
(** A cursor database: rows with keys above the cursor, in key order. *)
Definition cursor_db {R} (key : R -> Z) (all : list R) (db : qdb R) (sql : bytes) : Prop :=
  forall pre c lim, db sql (pre ++ [QV (AInt64 c); QV (AUint32 lim)]) =
                    inl (ok_rows (firstn (Z.to_nat lim) (filter (fun r => c <? key r) all))).
Inductive follow_cursor {R} (key : R -> Z) (fetch : Z -> outcome (list R * bool)) : Z -> list (list R) -> Prop :=
| fc_last c l : fetch c = ROk (l, false) -> follow_cursor key fetch c [l]
| fc_more c l r ps : fetch c = ROk (l ++ [r], true) -> follow_cursor key fetch (key r) ps -> follow_cursor key fetch c ((l ++ [r]) :: ps).
Definition closes (t : list qevent) : nat := length (filter (fun e => match e with QClose => true | _ => false end) t).
(** A-Z a-z 0-9 - _ *)
Definition url_char (c : ascii) : bool := let n := nat_of_ascii c in
  ((65 <=? n) && (n <=? 90) || (97 <=? n) && (n <=? 122) || (48 <=? n) && (n <=? 57) || (n =? 45) || (n =? 95))%nat.
(** A base64url text without unused bits set: two left-over characters carry 8 of 12
    bits, three carry 16 of 18. *)
Definition canonical_end (s : bytes) : Prop :=
  match (length s mod 4)%nat with
  | 2%nat => In (last s zero) (B "AQgw")
  | 3%nat => In (last s zero) (B "AEIMQUYcgkosw048")
  | _ => True
  end.
