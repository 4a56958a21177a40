(** Vocabulary of the theorems on JSON values. *)
From Coq Require Import Sorted.
From Verif Require Import GoBase GoBaseFacts IdModel TypeModel TypeSpec ParamModel JsonModel.
Open Scope Z_scope.

(** A Unicode scalar value, and text: the UTF-8 bytes of scalar values. *)
Definition scalar (r : Z) : Prop := 0 <= r < 55296 \/ 57344 <= r < 1114112.
Definition utf8_text (s : bytes) : Prop := exists rs, Forall scalar rs /\ s = flat_map utf8_enc rs.
(** What Go makes of a string when it goes through JSON: bytes that are not part
    of valid UTF-8 become U+FFFD. *)
Definition repaired (s : bytes) : bytes := flat_map (fun o => match o with Some b => b | None => replacement end) (runes (length s) s).

(** JSON values as a program builds them: numbers are JSON numbers. *)
Inductive json_ok : json -> Prop :=
| ok_null : json_ok JNull
| ok_bool b : json_ok (JBool b)
| ok_num t : scan_num t = Some (t, []) -> json_ok (JNum t)
| ok_str s : json_ok (JStr s)
| ok_arr l : Forall json_ok l -> json_ok (JArr l)
| ok_obj l : Forall (fun kv => json_ok (snd kv)) l -> json_ok (JObj l).
Fixpoint json_repaired (v : json) : json :=
  match v with
  | JStr s => JStr (repaired s)
  | JArr l => JArr (map json_repaired l)
  | JObj l => JObj (map (fun kv => (repaired (fst kv), json_repaired (snd kv))) l)
  | _ => v
  end.

(** All the text in a map, a slice, a cursor is UTF-8. *)
Definition meta_text (m : gmap bytes) : Prop := forall k v, mget m k = Some v -> utf8_text k /\ utf8_text v.
Definition slice_text (l : option (list bytes)) : Prop := forall xs x, l = Some xs -> In x xs -> utf8_text x.
Definition kv_text (m : gmap (option (list bytes))) : Prop := forall k v, mget m k = Some v -> utf8_text k /\ slice_text v.

(** Cursors: text is UTF-8, integers are those of int64 and uint64, maps have every
    key once *)
Inductive cval_ok : cval -> Prop :=
| co_null : cval_ok CNull
| co_bool b : cval_ok (CBool b)
| co_int n : - 2 ^ 63 <= n < 2 ^ 64 -> cval_ok (CInt n)
| co_float n : Z.abs n <= 2 ^ 53 -> cval_ok (CFloat n)
| co_str s : utf8_text s -> cval_ok (CStr s)
| co_arr l : Forall cval_ok l -> cval_ok (CArr l)
| co_map l : StronglySorted str_lt (map fst l) -> Forall (fun kv => utf8_text (fst kv) /\ cval_ok (snd kv)) l -> cval_ok (CMap l).
(** The integers of a cursor are float64 after decoding. *)
Fixpoint as_floats (v : cval) : cval :=
  match v with
  | CInt n => CFloat (f64 n)
  | CArr l => CArr (map as_floats l)
  | CMap l => CMap (map (fun kv => (fst kv, as_floats (snd kv))) l)
  | _ => v
  end.
