(** Vocabulary of the theorems on rows and JSON. *)
From Verif Require Import GoBase GoBaseFacts IdModel IdSpec FloatModel FloatSpec TypeModel TypeSpec ParamModel TimeModel TimeSpec TimeZone JsonModel JsonSpec JsonGrammar AnySpec RecordModel.
Open Scope Z_scope.

(** The packages encoding/json relies on: float64 and float32 are written as JSON
    numbers that are read as the same value, base64 is ASCII and is undone by its
    decoder. *)
Definition simple_char (c : ascii) : Prop := 32 <= byte c < 128 /\ byte c <> 34 /\ byte c <> 92 /\ byte c <> 60 /\ byte c <> 62 /\ byte c <> 38.
Definition codec_ok (cd : codec) : Prop :=
  float_format (fmt64 cd) /\
  (forall b, 0 <= b < 2 ^ 32 -> finite (widen b) -> json_ok (JNum (fmt32 cd b)) /\ read32 cd (fmt32 cd b) = Some b) /\
  (forall s, Forall simple_char (b64e cd s) /\ b64d cd (b64e cd s) = Some s).

(** What a variable of the Go type can hold. *)
Definition holds (v : rval) : Prop :=
  match v with
  | RId c => uint64 (id_val c)
  | RId32 n => uint32 n
  | RInt64 n => int64 n
  | RInt32 n => int32 n
  | RFloat b | RDouble b => pattern b
  | RSingle b => 0 <= b < 2 ^ 32 /\ pattern (widen b)
  | RTime z => time_ok (zt z)
  | RInt size n => 0 < size <= 64 /\ - 2 ^ (size - 1) <= n < 2 ^ (size - 1)
  | RIds (Some (b, n)) => (n <= length b)%nat /\ Forall (fun c => uint64 (id_val c)) b
  | RStrings (Some (b, n)) => (n <= length b)%nat
  | RInts (Some (b, n)) => (n <= length b)%nat /\ Forall int64 b
  | _ => True
  end.
(** What JSON can express: finite numbers, years of four digits. *)
Definition expressible (v : rval) : Prop :=
  match v with
  | RFloat b | RDouble b => finite b
  | RSingle b => finite (widen b)
  | RTime z => zt z = zero_time \/ 0 <= year_of (zt z) <= 9999
  | _ => True
  end.
(** All text is UTF-8. *)
Definition texts (v : rval) : Prop :=
  match v with
  | RText s => utf8_text s
  | RStrings l => Forall utf8_text (s_list l)
  | _ => True
  end.
(** What comes back: the same value; an ID with the same number, the same instant in
    UTC, slices with the same elements and as nil as before.  A Float is rounded to
    millionths. *)
Definition same_list {A} (R : A -> A -> Prop) (a b : slice A) : Prop := (a = None <-> b = None) /\ Forall2 R (s_list a) (s_list b).
Definition comes_back (v w : rval) : Prop :=
  match v, w with
  | RId c, RId d => id_val d = id_val c
  | RFloat b, RFloat b' => finite b' /\ (negative b' <-> negative b) /\ 1000000 * Z.abs (value b' - value b) <= 2 ^ 1074 /\
      (forall j, value b * 1000000 = j * 2 ^ 1074 -> b' = b)
  | RTime z, RTime z' => zt z' = zt z /\ zo z' = None
  | RIds l, RIds l' => same_list (fun c d => id_val d = id_val c) l l'
  | RStrings l, RStrings l' => same_list eq l l'
  | RInts l, RInts l' => same_list eq l l'
  | _, _ => w = v
  end.
(** In a row an empty value is not written, so that an empty slice comes back as nil. *)
Definition elements_back {A} (R : A -> A -> Prop) (a b : slice A) : Prop := (s_list a = [] <-> b = None) /\ Forall2 R (s_list a) (s_list b).
Definition comes_back_in_row (v w : rval) : Prop :=
  match v, w with
  | RBytes s, RBytes s' => s' = match s with Some (c :: r) => Some (c :: r) | _ => None end
  | RIds l, RIds l' => elements_back (fun c d => id_val d = id_val c) l l'
  | RStrings l, RStrings l' => elements_back eq l l'
  | RInts l, RInts l' => elements_back eq l l'
  | _, _ => comes_back v w
  end.
(** The zero value of the type of a field. *)
Definition zero_of (v : rval) : rval :=
  match v with
  | RId _ => RId None | RId32 _ => RId32 0 | RInt64 _ => RInt64 0 | RInt32 _ => RInt32 0 | RFloat _ => RFloat 0 | RBool _ => RBool false
  | RTime _ => RTime zzero | RText _ => RText [] | RInt size _ => RInt size 0 | RGoBool _ => RGoBool false | RDouble _ => RDouble 0
  | RSingle _ => RSingle 0 | RBytes _ => RBytes None | RIds _ => RIds None | RStrings _ => RStrings None | RInts _ => RInts None
  end.
Definition zero_row (r : row) : row := map (fun f => (fst f, zero_of (snd f))) r.
(** A member with this name is for this field: the name, or the name up to case. *)
Definition names (cd : codec) (k n : bytes) : Prop := exported cd n = true /\ (k = n \/ fold cd k = fold cd n).
(** The field a member is for: the exported field of exactly that name, else the
    first exported one whose name differs in case only. *)
Definition target (cd : codec) (ns : list bytes) (k : bytes) : option bytes :=
  let e := filter (exported cd) ns in
  if existsb (beqb k) e then Some k else find (fun n => beqb (fold cd n) (fold cd k)) e.
Definition for_field (cd : codec) (ns : list bytes) (n : bytes) (m : bytes * json) : bool :=
  match target cd ns (fst m) with Some n' => beqb n' n | None => false end.
(** What a field that held [x] holds when a member with the value [v], written as
    [t], was decoded into it: for the xdb types what their UnmarshalJSON makes of the
    text, for the others the value; null leaves these as they are, but a []byte or a
    slice becomes nil.  The elements of a slice are decoded into what the array behind
    it held. *)
Definition behind {A} (s : slice A) : list A := match s with None => [] | Some (b, _) => b end.
Definition list_says {A} (says : A -> json -> A -> Prop) (zero : A) (l : slice A) (v : json) (l' : slice A) : Prop :=
  v = JNull /\ l' = None \/
  exists vs, v = JArr vs /\ l' <> None /\ length (s_list l') = length vs /\
    forall i w, nth_error vs i = Some w -> exists a, nth_error (s_list l') i = Some a /\ says (nth i (behind l) zero) w a.
Definition value_says (cd : codec) (x : rval) (v : json) (t : bytes) (y : rval) : Prop :=
  match x, y with
  | RId c, RId d => id_unjson c t = (d, true)
  | RId32 n, RId32 n' => id32_unjson n t = (n', true)
  | RInt64 n, RInt64 n' => int64_unjson n t = (n', true)
  | RInt32 n, RInt32 n' => int32_unjson n t = (n', true)
  | RFloat b, RFloat b' => float_unjson b t = (b', true)
  | RBool b, RBool b' => bool_unjson b t = (b', true)
  | RTime z, RTime z' => zx_unjson z t = (z', true)
  | RText s, RText s' => v = JStr s' \/ v = JNull /\ s' = s
  | RInt size n, RInt size' n' => size' = size /\ ((exists d, v = JNum d /\ parse_int size d = Some n') \/ v = JNull /\ n' = n)
  | RGoBool b, RGoBool b' => v = JBool b' \/ v = JNull /\ b' = b
  | RDouble b, RDouble b' => (exists d, v = JNum d /\ parse_float d = Some b') \/ v = JNull /\ b' = b
  | RSingle b, RSingle b' => (exists d, v = JNum d /\ read32 cd d = Some b') \/ v = JNull /\ b' = b
  | RBytes s, RBytes s' => (exists d a, v = JStr d /\ b64d cd d = Some a /\ s' = Some a) \/ v = JNull /\ s' = None
  | RIds l, RIds l' => list_says (fun _ w c => exists tw, document tw w /\ id_unjson None tw = (c, true)) None l v l'
  | RStrings l, RStrings l' => list_says (fun old w s => w = JStr s \/ w = JNull /\ s = old) [] l v l'
  | RInts l, RInts l' => list_says (fun old w n => (exists d, w = JNum d /\ parse_int 64 d = Some n) \/ w = JNull /\ n = old) 0 l v l'
  | _, _ => False
  end.
(** The members for a field, one after the other. *)
Inductive through (cd : codec) : rval -> list (bytes * json) -> rval -> Prop :=
| through_nil x : through cd x [] x
| through_cons x k v t y l z : document t v -> value_says cd x v t y -> through cd y l z -> through cd x ((k, v) :: l) z.
