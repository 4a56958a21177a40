(** Vocabulary of the ID theorems, independent of the model's functions. *)
From Verif Require Import GoBase IdModel.
Open Scope Z_scope.

Definition uint64 (z : Z) : Prop := 0 <= z < 2 ^ 64.
Definition int64 (z : Z) : Prop := - 2 ^ 63 <= z < 2 ^ 63.
(** A non-empty string of decimal digits, and its value. *)
Definition is_digit (c : ascii) : Prop := (48 <= nat_of_ascii c <= 57)%nat.
Definition is_dec (s : bytes) : Prop := s <> [] /\ Forall is_digit s.
Definition dec_val (s : bytes) : Z := fold_left (fun a c => 10 * a + (Z.of_nat (nat_of_ascii c) - 48)) s 0.
(** The canonical decimal text of [n]: digits, no superfluous leading zero, value [n]. *)
Definition canonical (s : bytes) (n : Z) : Prop :=
  is_dec s /\ dec_val s = n /\ (s = B "0" \/ forall r, s <> ascii_of_nat 48 :: r).

(** An ID as the API can produce it: a uint64 (any cached text). *)
Definition id_ok (v : idc) : Prop := uint64 (id_val v).
(** Reachable IDs: those of a variable after any operations. *)
Definition op_ok (o : iop) : Prop :=
  match o with
  | OpNew _ n => uint64 n
  | OpScan _ (AInt64 n) | OpScan _ (AInt n) => int64 n
  | OpScan _ (AUint64 n) | OpScan _ (AUint n) => uint64 n
  | OpUnYaml _ (Some n) => uint64 n
  | _ => True
  end.
Definition reachable_id (v : idc) : Prop :=
  exists k l x, Forall op_ok l /\ v = iv_content (iv_run (iv_init k) l) x.
(** Reachable without UnmarshalJSON. *)
Definition no_json (o : iop) : Prop := match o with OpUnJson _ _ => False | _ => True end.
Definition reachable_plain (v : idc) : Prop :=
  exists k l x, Forall op_ok l /\ Forall no_json l /\ v = iv_content (iv_run (iv_init k) l) x.

(** First occurrences of a list. *)
Fixpoint dedup (l : list Z) (seen : list Z) : list Z :=
  match l with
  | [] => []
  | x :: r => if in_dec Z.eq_dec x seen then dedup r seen else x :: dedup r (x :: seen)
  end.

(** Operations other than Set and Reset; other than copying. *)
Definition quiet (o : iop) : Prop := match o with OpSet _ _ | OpReset _ => False | _ => True end.
Definition no_copy (o : iop) : Prop := match o with OpCopy _ _ => False | _ => True end.

(** A slice of the program (its array exists and is long enough); two slices
    with different backing arrays. *)
Definition sl_wf (a : arrays) (s : slice) : Prop := match s with None => True | Some (i, n) => (i < length a)%nat /\ (n <= length (sl_arr a i))%nat end.
Definition sl_disjoint (s t : slice) : Prop := match s, t with Some (i, _), Some (j, _) => i <> j | _, _ => True end.

(** ** Postgres array literals *)
(** The text of an array element and its content: bare (not NULL, no comma or
    closing brace, not starting with an opening brace or a quote) or between
    quotes, where a backslash stands before any character and must stand before
    quotes and backslashes. *)
Inductive quoted_text : bytes -> bytes -> Prop :=
| qt_nil : quoted_text [] []
| qt_char c t w : c <> dquote -> c <> ascii_of_nat 92 -> quoted_text t w -> quoted_text (c :: t) (c :: w)
| qt_esc c t w : quoted_text t w -> quoted_text (ascii_of_nat 92 :: c :: t) (c :: w).
Definition bare_text (t : bytes) : Prop :=
  t <> [] /\ t <> B "NULL" /\ ~ In (ascii_of_nat 44) t /\ ~ In (ascii_of_nat 125) t /\ (forall r, t <> ascii_of_nat 123 :: r) /\ (forall r, t <> dquote :: r).
Inductive array_elem : bytes -> bytes -> Prop :=
| ae_bare t : bare_text t -> array_elem t t
| ae_null : array_elem (B "NULL") []
| ae_quoted t w : quoted_text t w -> array_elem (dquote :: t ++ [dquote]) w.
(** An array literal with the elements [ws]; {}, {{}}, ... are all empty. *)
Inductive array_text : bytes -> list bytes -> Prop :=
| at_empty k : (0 < k)%nat -> array_text (repeat (ascii_of_nat 123) k ++ repeat (ascii_of_nat 125) k) []
| at_elems ts ws : ts <> [] -> Forall2 array_elem ts ws -> array_text (B "{" ++ join (B ",") ts ++ B "}") ws.
(** A decimal integer in the range of int64, with an optional sign. *)
Definition int_text (s : bytes) (z : Z) : Prop :=
  int64 z /\ exists d, is_dec d /\ (s = d /\ z = dec_val d \/ s = B "+" ++ d /\ z = dec_val d \/ s = B "-" ++ d /\ z = - dec_val d).
