(** Go values of type any made by json.Unmarshal, with their float64 values, where
    the API hands them out: the Payload of a notification (pkg/notifier/listener.go)
    and cursors (query.go).  JsonModel has the JSON texts, FloatModel
    strconv.ParseFloat. *)
From Verif Require Import GoBase IdModel FloatModel TypeModel ParamModel ProvModel JsonModel.
Open Scope Z_scope.

(** A value that is sent or received: nil, bool, an integer of any Go type (only
    sent), a float64 by its bits, string, []any, map[string]any as the list of its
    entries in the order of the keys. *)
Inductive aval := VNil | VBool (b : bool) | VInt (n : Z) | VNum (bits : Z) | VStr (s : bytes) | VArr (l : list aval) | VMap (l : list (bytes * aval)).

(** encoding/json decode.go literalStore, literalInterface, arrayInterface,
    objectInterface into an any: a number is ParseFloat's; one out of range is an
    error that is kept for the end, its value is nil and decoding goes on. *)
Fixpoint any_of (v : json) : aval :=
  match v with
  | JNull => VNil
  | JBool b => VBool b
  | JNum t => match parse_float t with Some b => VNum b | None => VNil end
  | JStr s => VStr s
  | JArr l => VArr (map any_of l)
  | JObj l => VMap (stored (map (fun kv => (fst kv, any_of (snd kv))) l))
  end.
Fixpoint any_fits (v : json) : bool :=
  match v with
  | JNum t => match parse_float t with Some _ => true | None => false end
  | JArr l => forallb any_fits l
  | JObj l => forallb (fun kv => any_fits (snd kv)) l
  | _ => true
  end.
(** json.Unmarshal of a text into a nil map[string]any: what the map is then (None:
    nil), and whether there was no error *)
Definition unmarshal_map (s : bytes) : option (list (bytes * aval)) * bool :=
  match parse_json s with
  | Some (JObj l) => (Some (stored (map (fun kv => (fst kv, any_of (snd kv))) l)), any_fits (JObj l))
  | Some JNull => (None, true)
  | _ => (None, false)
  end.

(** pkg/notifier/listener.go:135-151 parsePayload: the error is only logged *)
Definition deliver (n : notif) : gnotif (list (bytes * aval)) := parse_payload (fun s => fst (unmarshal_map s)) n.

(** json.Marshal of a value; [fmt] is its text of a float64 (encode.go floatEncoder:
    the shortest decimal that ParseFloat reads as the same float64) *)
Fixpoint any_json (fmt : Z -> bytes) (v : aval) : json :=
  match v with
  | VNil => JNull
  | VBool b => JBool b
  | VInt n => JNum (fmt_int 10 n)
  | VNum b => JNum (fmt b)
  | VStr s => JStr s
  | VArr l => JArr (map (any_json fmt) l)
  | VMap l => JObj (map (fun kv => (fst kv, any_json fmt (snd kv))) l)
  end.
Definition any_text (fmt : Z -> bytes) (m : list (bytes * aval)) : bytes := json_text (any_json fmt (VMap m)).
(** query.go:152-154 EncodeCursor, 157-168 DecodeCursor: the outer option is the
    error, the inner the nil map *)
Definition encode_any (fmt : Z -> bytes) (m : list (bytes * aval)) : bytes := b64_encode (any_text fmt m).
Definition decode_any (s : bytes) : option (option (list (bytes * aval))) :=
  match b64_decode s with
  | None => None
  | Some t => match unmarshal_map t with (m, true) => Some m | (_, false) => None end
  end.
