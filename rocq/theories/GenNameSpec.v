(** Specification of generated names, package clauses and column literals
    (C158-C160), independent of the model's helpers. *)
From Verif Require Import GoBase SchemaModel GenModel.
Open Scope Z_scope.

(** ** Struct names *)
(** Case-insensitive ASCII equality. *)
Definition same_word (a b : bytes) : Prop := map lower_ascii a = map lower_ascii b.
(** The name of the struct of a table: the definition given for its full name;
    otherwise the Pascal-case singular of its name, followed by the suffix if one
    is asked for, preceded by the schema if that is asked for and the schema is
    neither dbo nor public. *)
Inductive struct_name (nm : naming) (a : gargs) (tables : list (bytes * bytes)) (t : gtab) : bytes -> Prop :=
| sn_defined r : mget (g_fqn t) tables = Some r -> struct_name nm a tables t r
| sn_plain sfx : mget (g_fqn t) tables = None -> ga_useschema a = false \/ same_word (g_schema t) (B "dbo") \/ same_word (g_schema t) (B "public") ->
    (ga_suffix a = [] /\ sfx = [] \/ ga_suffix a <> [] /\ sfx = nm_pascal nm (ga_suffix a)) -> struct_name nm a tables t (nm_pascal nm (nm_singular nm (g_name t)) ++ sfx)
| sn_schema sfx : mget (g_fqn t) tables = None -> ga_useschema a = true -> ~ same_word (g_schema t) (B "dbo") -> ~ same_word (g_schema t) (B "public") ->
    (ga_suffix a = [] /\ sfx = [] \/ ga_suffix a <> [] /\ sfx = nm_pascal nm (ga_suffix a)) ->
    struct_name nm a tables t (nm_pascal nm (g_schema t) ++ nm_pascal nm (nm_singular nm (g_name t)) ++ sfx).
(** A Go name from an SQL name: a leading underscore becomes X. *)
Inductive from_sql (nm : naming) : bytes -> bytes -> Prop :=
| fs_under r : from_sql nm (B "_" ++ r) (nm_pascal nm (B "X" ++ r))
| fs_other c r : [c] <> B "_" -> from_sql nm (c :: r) (nm_pascal nm (c :: r)).
(** The name of a field: the definition for its full name, else from its name. *)
Inductive field_name (nm : naming) (fields : list (bytes * bytes)) (c : column) : bytes -> Prop :=
| fn_defined r : mget (c_fqn c) fields = Some r -> field_name nm fields c r
| fn_own r : mget (c_fqn c) fields = None -> from_sql nm (c_name c) r -> field_name nm fields c r.
(** The name of a TableInfo variable. *)
Inductive info_name (nm : naming) (tables : list (bytes * bytes)) (t : gtab) : bytes -> Prop :=
| in_defined r : mget (g_fqn t) tables = Some r -> info_name nm tables t (r ++ B "TableInfo")
| in_own r : mget (g_fqn t) tables = None -> from_sql nm (nm_singular nm (g_name t)) r -> info_name nm tables t (r ++ B "TableInfo").

(** ** Package clauses *)
(** The package of the files in a directory: the flag, else the last element of
    the path, else "model". *)
Inductive package_of (flag dir : bytes) : bytes -> Prop :=
| po_flag : flag <> [] -> package_of flag dir flag
| po_none k : flag = [] -> dir = repeat (ch 47) k -> package_of flag dir (B "model")
| po_dot pre k : flag = [] -> dir = pre ++ B "." ++ repeat (ch 47) k -> (pre = [] \/ exists p, pre = p ++ B "/") -> package_of flag dir (B "model")
| po_base pre base k : flag = [] -> dir = pre ++ base ++ repeat (ch 47) k -> (pre = [] \/ exists p, pre = p ++ B "/") -> base <> [] -> base <> B "." -> ~ In (ch 47) base ->
    package_of flag dir base.

(** ** Column literals *)
(** Tokens of a Go composite literal; strings without escapes. *)
Inductive tok := TPunct (c : ascii) | TWord (s : bytes) | TString (s : bytes).
Inductive lex_state := LxFree | LxWord (acc : bytes) | LxString (acc : bytes).
Definition word_char (c : ascii) : bool :=
  let n := nat_of_ascii c in ((48 <=? n) && (n <=? 57) || (65 <=? n) && (n <=? 90) || (97 <=? n) && (n <=? 122) || (n =? 95))%nat.
Definition punct_char (c : ascii) : bool := existsb (Ascii.eqb c) (B "{}:,").
Fixpoint lex (st : lex_state) (s : bytes) : option (list tok) :=
  match s with
  | [] => match st with LxFree => Some [] | LxWord acc => Some [TWord acc] | LxString _ => None end
  | c :: r =>
      match st with
      | LxString acc =>
          if Ascii.eqb c (ch 34) then option_map (cons (TString acc)) (lex LxFree r)
          else if Ascii.eqb c (ch 92) || Ascii.eqb c (ch 10) then None
          else lex (LxString (acc ++ [c])) r
      | _ =>
          if word_char c then lex (LxWord (match st with LxWord acc => acc ++ [c] | _ => [c] end)) r
          else
            let tail := if Ascii.eqb c (ch 32) then lex LxFree r
                        else if Ascii.eqb c (ch 34) then lex (LxString []) r
                        else if punct_char c then option_map (cons (TPunct c)) (lex LxFree r) else None in
            match st with LxWord acc => option_map (cons (TWord acc)) tail | _ => tail end
      end
  end.
Definition tokens (s : bytes) : option (list tok) := lex LxFree s.
(** Texts that mean themselves between quotes. *)
Definition literal_text (s : bytes) : Prop := Forall (fun c => c <> ch 34 /\ c <> ch 92 /\ c <> ch 10) s.
(** The tokens of a field, of a separator, of the whole literal. *)
Definition lit_field (k : string) (v : tok) : list tok := [TWord (B k); TPunct (ch 58); v].
Definition lit_comma : list tok := [TPunct (ch 44)].
Definition lit_of (l : list tok) : list tok := TPunct (ch 123) :: l ++ [TPunct (ch 125)].
(** A word that reads as a number (strconv.ParseUint with 32 bits). *)
Definition number (w : bytes) (n : Z) : Prop := parse_uint 32 w = Some n.
