(** Specification of the postgres rendering of any statement: which '?' of
    which expressions are numbered.  No chunks, buffers or offsets.

    The expressions of a clause come in *runs*: expressions written one after
    the other, with no text written to another clause in between.  The dialect
    decides run by run: when a run carries at least one argument, every '?' in
    it is a placeholder, and otherwise the run is copied verbatim. *)
From Verif Require Import GoBase XsqlModel XsqlSpec.
Open Scope Z_scope.

Record run := mkRun { r_pos : Z; r_text : bytes; r_args : nat }.

(** The run of clause [p] that is still open ([rs]: latest first), and the
    other runs: no text was written to another clause since. *)
Fixpoint reopen (p : Z) (rs : list run) : option (run * list run) :=
  match rs with
  | [] => None
  | r :: rest =>
      if r_pos r =? p then Some (r, rest)
      else if is_empty (r_text r)
           then match reopen p rest with Some (x, l) => Some (x, r :: l) | None => None end
           else None
  end.

(** One write after the history [h]: the first write of a clause starts a run
    with the keyword; an empty expression writes nothing; any other expression
    continues the open run of its clause or starts a new one. *)
Definition add_run (h : list write) (rs : list run) (w : write) : list run :=
  let ws := at_pos (w_pos w) h in
  if is_empty ws then mkRun (w_pos w) (first_text w) (length (w_args w)) :: rs
  else if is_empty (w_expr w) then rs
  else
    let t := (if existsb (fun x => negb (is_empty (w_expr x))) ws then w_sep w else B " ") ++ w_expr w in
    match reopen (w_pos w) rs with
    | Some (r, rest) => mkRun (w_pos w) (r_text r ++ t) (r_args r + length (w_args w)) :: rest
    | None => mkRun (w_pos w) t (length (w_args w)) :: rs
    end.
Fixpoint runs_from (h : list write) (rs : list run) (ws : list write) : list run :=
  match ws with
  | [] => rs
  | w :: r => runs_from (h ++ [w]) (add_run h rs w) r
  end.
Definition runs (h : list write) : list run := runs_from [] [] h.

(** The runs of clause [p], in call order. *)
Definition runs_at (p : Z) (h : list write) : list run :=
  rev (filter (fun r => r_pos r =? p) (runs h)).

(** Numbering: through all the clauses by increasing rank, run by run. *)
Fixpoint number_runs (k : Z) (l : list run) : Z * bytes :=
  match l with
  | [] => (k, [])
  | r :: l' =>
      let '(k1, o1) := if (0 <? r_args r)%nat then pg_number k (r_text r) else (k, r_text r) in
      let '(k2, o2) := number_runs k1 l' in (k2, o1 ++ o2)
  end.
Fixpoint number_clauses (k : Z) (gs : list (list run)) : list bytes :=
  match gs with
  | [] => []
  | g :: gs' => let '(k1, o) := number_runs k g in o :: number_clauses k1 gs'
  end.
Definition pg_text (h : list write) : bytes :=
  join (B " ") (number_clauses 1 (map (fun p => runs_at p h) (positions h))).

(** Every write adds text, to another clause than the write before it. *)
Definition written (h : list write) (w : write) : bytes :=
  if is_empty (at_pos (w_pos w) h) then first_text w else w_expr w.
Fixpoint apart (prev : option Z) (h ws : list write) : bool :=
  match ws with
  | [] => true
  | w :: r =>
      negb (is_empty (written h w))
      && match prev with None => true | Some p => negb (p =? w_pos w) end
      && apart (Some (w_pos w)) (h ++ [w]) r
  end.
