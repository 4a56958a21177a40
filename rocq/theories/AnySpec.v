(** Vocabulary of the theorems on values of type any. *)
From Coq Require Import Sorted.
From Verif Require Import GoBase GoBaseFacts IdModel IdSpec FloatModel FloatSpec TypeModel TypeSpec ParamModel ProvModel JsonModel JsonSpec AnyModel.
Open Scope Z_scope.

(** A value that can be sent: text is UTF-8, numbers are finite, integers are those
    of int64 and uint64, maps have every key once. *)
Inductive sendable : aval -> Prop :=
| sd_nil : sendable VNil
| sd_bool b : sendable (VBool b)
| sd_int n : - 2 ^ 63 <= n < 2 ^ 64 -> sendable (VInt n)
| sd_num b : finite b -> sendable (VNum b)
| sd_str s : utf8_text s -> sendable (VStr s)
| sd_arr l : Forall sendable l -> sendable (VArr l)
| sd_map l : StronglySorted str_lt (map fst l) -> Forall (fun kv => utf8_text (fst kv) /\ sendable (snd kv)) l -> sendable (VMap l).
(** What arrives, by comparison with what was sent: the same value with each integer
    as its nearest float64. *)
Inductive arrives : aval -> aval -> Prop :=
| ar_nil : arrives VNil VNil
| ar_bool b : arrives (VBool b) (VBool b)
| ar_int n b : nearest (n <? 0) n 1 b -> arrives (VInt n) (VNum b)
| ar_num b : arrives (VNum b) (VNum b)
| ar_str s : arrives (VStr s) (VStr s)
| ar_arr l l' : Forall2 arrives l l' -> arrives (VArr l) (VArr l')
| ar_map l l' : Forall2 (fun kv kv' => fst kv = fst kv' /\ arrives (snd kv) (snd kv')) l l' -> arrives (VMap l) (VMap l').
(** A way to write float64 values: JSON numbers that ParseFloat reads back. *)
Definition float_format (fmt : Z -> bytes) : Prop := forall b, finite b -> json_ok (JNum (fmt b)) /\ parse_float (fmt b) = Some b.
(** The last member of an object with a name, the value of a name in a map. *)
Fixpoint last_of {A} (k : bytes) (l : list (bytes * A)) : option A :=
  match l with [] => None | (j, v) :: r => match last_of k r with Some x => Some x | None => if beqb k j then Some v else None end end.
Fixpoint value_of {A} (k : bytes) (l : list (bytes * A)) : option A :=
  match l with [] => None | (j, v) :: r => if beqb k j then Some v else value_of k r end.
(** What a JSON value is as a Go value. *)
Inductive denotes : json -> aval -> Prop :=
| dn_null : denotes JNull VNil
| dn_bool b : denotes (JBool b) (VBool b)
| dn_num t neg ip fp x b : decimal t neg ip fp x -> nearest neg (signed neg (dec_num ip fp x)) (dec_den fp x) b -> ~ too_large (dec_num ip fp x) (dec_den fp x) -> denotes (JNum t) (VNum b)
| dn_huge t neg ip fp x : decimal t neg ip fp x -> too_large (dec_num ip fp x) (dec_den fp x) -> denotes (JNum t) VNil
| dn_str s : denotes (JStr s) (VStr s)
| dn_arr l l' : Forall2 denotes l l' -> denotes (JArr l) (VArr l')
| dn_obj l vs m : Forall2 (fun kj kv => fst kj = fst kv /\ denotes (snd kj) (snd kv)) l vs -> StronglySorted str_lt (map fst m) -> (forall k, value_of k m = last_of k vs) -> denotes (JObj l) (VMap m).
(** All exponents of the numbers in a JSON value are below 100000 in absolute value
    (strconv stops counting there). *)
Inductive small_exponents : json -> Prop :=
| sm_null : small_exponents JNull
| sm_bool b : small_exponents (JBool b)
| sm_num t : (forall neg ip fp x, decimal t neg ip fp x -> Z.abs x < 100000) -> small_exponents (JNum t)
| sm_str s : small_exponents (JStr s)
| sm_arr l : Forall small_exponents l -> small_exponents (JArr l)
| sm_obj l : Forall (fun kv => small_exponents (snd kv)) l -> small_exponents (JObj l).
(** Somewhere in a JSON value there is a number beyond the range of float64. *)
Inductive overflows : json -> Prop :=
| ov_num t neg ip fp x : decimal t neg ip fp x -> too_large (dec_num ip fp x) (dec_den fp x) -> overflows (JNum t)
| ov_arr l j : In j l -> overflows j -> overflows (JArr l)
| ov_obj l k j : In (k, j) l -> overflows j -> overflows (JObj l).
