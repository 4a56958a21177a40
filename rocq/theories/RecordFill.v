(** What a document leaves in a row. *)
From Verif Require Import GoBase GoBaseFacts IdModel IdSpec FloatModel FloatSpec TypeModel TypeSpec ParamModel TimeModel TimeSpec TimeZone JsonModel JsonSpec AnySpec RecordModel RecordSpec RecordProofs RecordLocal JsonGrammar JsonGrammarFull.
From Coq Require Import Lia.
Open Scope Z_scope.

Lemma nth_firstn {A} (l : list A) : forall n i, (i < n)%nat -> nth_error (firstn n l) i = nth_error l i.
Proof. induction l as [|x l IH]; intros [|n] [|i] H; try reflexivity; try lia. cbn [firstn nth_error]. apply IH. lia. Qed.
Lemma worst_ok a b : worst a b = DOk -> a = DOk /\ b = DOk. Proof. destruct a, b; try discriminate; auto. Qed.
Lemma into_array_ok {A} (dec : A -> json -> bytes -> A * outcome) zero : forall l back xs n, into_array dec zero back l = (xs, n, DOk) ->
  n = length l /\ (n <= length xs)%nat /\ forall i v t, nth_error l i = Some (v, t) -> exists x, nth_error xs i = Some x /\ dec (nth i back zero) v t = (x, DOk).
Proof.
  induction l as [|[v t] l IH]; intros back xs n E; cbn [into_array] in E.
  - injection E as <- <-. split; [reflexivity|]. split; [cbn; lia|]. intros [|i] v t X; discriminate.
  - destruct (dec (hd zero back) v t) as [x o] eqn:D. assert (O : exists xs' n', into_array dec zero (tl back) l = (xs', n', DOk) /\ o = DOk /\ xs = x :: xs' /\ n = S n').
    { destruct o; [| |discriminate]; destruct (into_array dec zero (tl back) l) as [[xs' n'] o']; injection E as <- <- E; [|destruct o'; discriminate]. destruct o'; try discriminate. exists xs', n'. auto. }
    destruct O as (xs' & n' & E' & -> & -> & ->). destruct (IH _ _ _ E') as (N & L & F). split; [cbn [length]; congruence|]. split; [cbn [length]; lia|].
    intros [|i] v0 t0 X; cbn [nth_error] in X.
    + injection X as <- <-. exists x. split; [reflexivity|]. destruct back; exact D.
    + destruct (F i v0 t0 X) as (x0 & E0 & D0). exists x0. split; [exact E0|]. destruct back; [destruct i; exact D0|exact D0].
Qed.
Lemma into_list_ok {A} (dec : A -> json -> bytes -> A * outcome) (says : A -> json -> A -> Prop) zero old v t l' :
  (forall a w tw x, parse_json tw = Some w -> dec a w tw = (x, DOk) -> says a w x) ->
  parse_json t = Some v -> skip_ws t = t -> into_list dec zero old v t = (l', DOk) -> list_says says zero old v l'.
Proof.
  intros S P W E. unfold into_list in E. destruct v as [| | | |l|]; try discriminate; [injection E as <-; left; auto|]. right. exists l. split; [reflexivity|].
  destruct (parts_array t l P) as [M F]. rewrite W in M, F. set (ps := array_parts t) in *. clearbody ps.
  assert (BB : exists back n0, match old with None => ([], O) | Some (b, n) => (b, n) end = (back, n0) /\ back = behind old) by (destruct old as [[b n]|]; eauto). destruct BB as (back & n0 & EB & ->). rewrite EB in E.
  destruct (into_array dec zero (behind old) ps) as [[xs n] o] eqn:D. injection E as E ->. destruct (into_array_ok _ _ _ _ _ _ D) as (N & L & G).
  assert (LS : s_list l' = firstn n xs). { destruct ps as [|p ps]; cbn [is_empty] in E; rewrite <- E; [cbn in N; subst n|]; reflexivity. }
  split. { destruct (is_empty ps); rewrite <- E; discriminate. } rewrite LS. split; [rewrite firstn_length_le by exact L; rewrite N, <- M; symmetry; apply map_length|].
  intros i w X. rewrite <- M, nth_error_map in X. destruct (nth_error ps i) as [[w' tw]|] eqn:Xi; [|discriminate]. injection X as X. cbn [fst] in X. subst w'.
  destruct (G i w tw Xi) as (x & Ex & Dx). exists x. split. { rewrite nth_firstn; [exact Ex|]. rewrite N. apply nth_error_Some. congruence. }
  apply (S _ w tw); [|exact Dx]. rewrite Forall_forall in F. exact (proj1 (F _ (nth_error_In _ _ Xi))).
Qed.
Lemma saved_ok {A} (x : A * bool) y o : saved x = (y, o) -> o = DOk -> x = (y, true).
Proof. destruct x as [a []]; unfold saved; cbn [fst snd]; intros [= <- <-]; [reflexivity|discriminate]. Qed.
Lemma into_value_ok cd x v t y : parse_json t = Some v -> skip_ws t = t -> into_value cd x v t = (y, DOk) -> value_says cd x v t y.
Proof.
  intros P W E. destruct x as [c|n|n|n|b|b|z|s|size n|b|b|b|s|l|l|l]; cbn [into_value] in E;
    try (unfold stops in E; match type of E with (?f (fst ?u), _) = _ => destruct u as [w []] eqn:U end; [|discriminate]; cbn [fst snd] in E; injection E as <-; exact U);
    try (match type of E with (let '(_, _) := saved ?u in _) = _ => destruct (saved u) as [w o] eqn:U end; injection E as <- ->; apply saved_ok in U; [|reflexivity]; cbn [value_says]).
  - destruct v; try discriminate; injection U as <-; auto.
  - split; [reflexivity|]. unfold into_int in U. destruct v; try discriminate; [injection U as <-; auto|]. match type of U with context[parse_int size ?d] => destruct (parse_int size d) eqn:Q end; [|discriminate]. injection U as <-. eauto.
  - destruct v; try discriminate; injection U as <-; auto.
  - unfold into_float in U. destruct v; try discriminate; [injection U as <-; auto|]. match type of U with context[parse_float ?d] => destruct (parse_float d) eqn:Q end; [|discriminate]. injection U as <-. eauto.
  - unfold into_float in U. destruct v; try discriminate; [injection U as <-; auto|]. match type of U with context[read32 cd ?d] => destruct (read32 cd d) eqn:Q end; [|discriminate]. injection U as <-. eauto.
  - unfold into_bytes in U. destruct v; try discriminate; [injection U as <-; auto|]. match type of U with context[b64d cd ?d] => destruct (b64d cd d) eqn:Q end; [|discriminate]. injection U as <-. left. eauto.
  - destruct (into_list dec_id None l v t) as [w o] eqn:U. injection E as <- ->. refine (into_list_ok _ _ _ _ _ _ _ _ P W U).
    intros a j tw c Pw D. exists tw. split; [apply grammar, Pw|]. unfold dec_id, id_unjson in *. cbv zeta in *. destruct (is_empty _ || _); cbn [fst snd] in *; [injection D as <-; reflexivity|]. destruct (go_parse_uint _); [|discriminate]. cbn [fst snd] in *. injection D as <-. reflexivity.
  - destruct (into_list dec_text [] l v t) as [w o] eqn:U. injection E as <- ->. refine (into_list_ok _ _ _ _ _ _ _ _ P W U).
    intros a j tw c Pw D. unfold dec_text in D. apply saved_ok in D; [|reflexivity]. destruct j; try discriminate; injection D as <-; auto.
  - destruct (into_list (dec_int 64) 0 l v t) as [w o] eqn:U. injection E as <- ->. refine (into_list_ok _ _ _ _ _ _ _ _ P W U).
    intros a j tw c Pw D. unfold dec_int in D. apply saved_ok in D; [|reflexivity]. unfold into_int in D. destruct j; try discriminate; [injection D as <-; auto|]. match type of D with context[parse_int 64 ?d] => destruct (parse_int 64 d) eqn:Q end; [|discriminate]. injection D as <-. eauto.
Qed.

(** ** Rows *)
Definition step (cd : codec) (n : option bytes) (v : json) (t : bytes) (f f' : bytes * rval) : Prop :=
  fst f = fst f' /\ if match n with Some n => beqb n (fst f) | None => false end then into_value cd (snd f) v t = (snd f', DOk) else f' = f.
Lemma step_none cd v t r : Forall2 (step cd None v t) r r. Proof. induction r; constructor; [split; reflexivity|assumption]. Qed.
Lemma step_other cd n v t r : ~ In n (map fst r) -> Forall2 (step cd (Some n) v t) r r.
Proof.
  induction r as [|f r IH]; intros H; constructor; [split; [reflexivity|]|apply IH; intros X; apply H; right; exact X].
  destruct (beqb n (fst f)) eqn:E; [|reflexivity]. apply beqb_eq in E. exfalso. apply H. left. symmetry. exact E.
Qed.
Lemma into_field_step cd p v t : forall r r', NoDup (map fst r) -> into_field cd p r v t = Some (r', DOk) ->
  exists n, find p (map fst r) = Some n /\ Forall2 (step cd (Some n) v t) r r'.
Proof.
  induction r as [|[n x] r IH]; intros r' ND E; cbn [into_field] in E; [discriminate|]. cbn [map fst find] in *. inversion ND as [|? ? N ND']; subst. destruct (p n) eqn:P.
  - destruct (into_value cd x v t) as [y o] eqn:V. injection E as <- ->. exists n. split; [reflexivity|]. constructor; [split; [reflexivity|]; cbn [fst snd]; rewrite beqb_refl; exact V|apply step_other, N].
  - destruct (into_field cd p r v t) as [[r'' o]|] eqn:F; [|discriminate]. injection E as <- ->. destruct (IH r'' ND' eq_refl) as (m & Em & Fm). exists m. split; [exact Em|]. constructor; [split; [reflexivity|]|exact Fm].
    cbn [fst snd]. destruct (beqb m n) eqn:X; [|reflexivity]. apply beqb_eq in X. subst m. exfalso. apply find_some in Em as [I _]. exact (N I).
Qed.
Lemma into_field_none cd p v t : forall r, into_field cd p r v t = None -> find p (map fst r) = None.
Proof.
  induction r as [|[n x] r IH]; intros E; [reflexivity|]. cbn [into_field map fst find] in *. destruct (p n); [destruct (into_value cd x v t); discriminate|]. destruct (into_field cd p r v t) as [[? ?]|]; [discriminate|exact (IH eq_refl)].
Qed.
Lemma find_filter {A} (p q : A -> bool) l : find (fun x => p x && q x) l = find q (filter p l).
Proof. induction l as [|x l IH]; [reflexivity|]. cbn [find filter]. destruct (p x); cbn [andb find]; [destruct (q x); [reflexivity|exact IH]|exact IH]. Qed.
Lemma find_exact (k : bytes) l : find (fun n => beqb n k) l = if existsb (beqb k) l then Some k else None.
Proof.
  induction l as [|n l IH]; [reflexivity|]. cbn [find existsb]. destruct (beqb n k) eqn:E.
  - apply beqb_eq in E. subst n. rewrite beqb_refl. reflexivity.
  - destruct (beqb k n) eqn:E'; [|exact IH]. apply beqb_eq in E'. subst n. rewrite beqb_refl in E. discriminate.
Qed.
Lemma into_member_step cd r k v t r' : NoDup (map fst r) -> into_member cd r k v t = (r', DOk) -> Forall2 (step cd (target cd (map fst r) k) v t) r r'.
Proof.
  intros ND E. unfold into_member in E. unfold target. destruct (into_field cd (fun n => exported cd n && beqb n k) r v t) as [[r1 o]|] eqn:E1.
  - injection E as -> ->. destruct (into_field_step _ _ _ _ _ _ ND E1) as (n & Fn & S). rewrite find_filter, find_exact in Fn. destruct (existsb _ _); [|discriminate]. injection Fn as <-. exact S.
  - apply into_field_none in E1. rewrite find_filter, find_exact in E1. destruct (existsb _ _); [discriminate|].
    destruct (into_field cd (fun n => exported cd n && beqb (fold cd n) (fold cd k)) r v t) as [[r1 o]|] eqn:E2.
    + injection E as -> ->. destruct (into_field_step _ _ _ _ _ _ ND E2) as (n & Fn & S). rewrite find_filter in Fn. rewrite Fn. exact S.
    + injection E as <-. apply into_field_none in E2. rewrite find_filter in E2. rewrite E2. apply step_none.
Qed.
Lemma step_names cd n v t r r' : Forall2 (step cd n v t) r r' -> map fst r' = map fst r.
Proof. induction 1 as [|f f' r r' [E _] _ IH]; [reflexivity|]. cbn [map]. rewrite IH, E. reflexivity. Qed.
Definition went (cd : codec) (ns : list bytes) (l : list (bytes * json)) (f f' : bytes * rval) : Prop :=
  fst f = fst f' /\ through cd (snd f) (filter (for_field cd ns (fst f)) l) (snd f').
Lemma into_row_went cd : forall ps r r', NoDup (map fst r) -> Forall (fun p => parse_json (snd (snd p)) = Some (fst (snd p)) /\ skip_ws (snd (snd p)) = snd (snd p)) ps ->
  into_row cd r ps = (r', DOk) -> Forall2 (went cd (map fst r) (map (fun p => (fst p, fst (snd p))) ps)) r r'.
Proof.
  induction ps as [|[k [v t]] ps IH]; intros r r' ND F E; cbn [into_row] in E.
  - injection E as <-. clear. generalize (map fst r). intros ns. induction r; constructor; [split; [reflexivity|constructor]|assumption].
  - inversion F as [|? ? [P W] F']; subst. cbn [fst snd] in P, W. destruct (into_member cd r k v t) as [r1 o] eqn:M.
    assert (O : o = DOk /\ into_row cd r1 ps = (r', DOk)). { destruct o; [| |discriminate]; destruct (into_row cd r1 ps) as [r2 o']; injection E as <- E; destruct o'; try discriminate; auto. }
    destruct O as [-> E']. pose proof (into_member_step _ _ _ _ _ _ ND M) as S. pose proof (step_names _ _ _ _ _ _ S) as N.
    pose proof (IH r1 r' ltac:(rewrite N; exact ND) F' E') as G. rewrite N in G. clear E E'. revert r' G. set (ns := map fst r) in *. clearbody ns. clear -S P W.
    induction S as [|f f1 r r1 [A1 N1] _ IHS]; intros r' G; inversion G as [|? f2 ? r2 [A2 T2] G']; subst; constructor; [|apply IHS; auto].
    split; [congruence|]. cbn [map filter fst snd]. unfold for_field at 1. cbn [fst]. destruct (target cd ns k) as [n|]; [|subst f1; exact T2]. destruct (beqb n (fst f)); [|subst f1; exact T2].
    rewrite <- A1 in T2. exact (through_cons cd _ k v t _ _ _ (proj1 (grammar _ _) P) (into_value_ok _ _ _ _ _ P W N1) T2).
Qed.
Lemma row_went cd r text l r' : NoDup (map fst r) -> document text (JObj l) -> row_unjson cd r text = (r', true) -> Forall2 (went cd (map fst r) l) r r'.
Proof.
  intros ND P E. apply grammar in P. unfold row_unjson in E. rewrite P in E. destruct (parts_object text l P) as [M F]. destruct (into_row cd r (object_parts (skip_ws text))) as [r1 o] eqn:R. injection E as <- E. destruct o; try discriminate.
  pose proof (into_row_went cd _ _ _ ND F R) as G. rewrite M in G. exact G.
Qed.
