(** What a scanner makes of a text does not depend on what follows the part it reads. *)
From Verif Require Import GoBase GoBaseFacts IdModel IdSpec TypeModel ParamModel JsonModel JsonSpec JsonProofs AnyProofs RecordModel RecordSpec RecordProofs.
Open Scope Z_scope.

Lemma too_short (a b : bytes) : tail_of a b -> (length b < length a)%nat -> False.
Proof. intros T L. apply tail_length in T. lia. Qed.
(** A tail that is at least as long as the end of a text starts before the end. *)
Lemma tail_split r s e : tail_of r (s ++ e) -> (length e <= length r)%nat -> exists s', r = s' ++ e /\ tail_of s' s.
Proof.
  intros [p E] L. assert (Lp : (length p <= length s)%nat) by (apply (f_equal (@length ascii)) in E; rewrite !app_length in E; lia).
  assert (P : p = firstn (length p) s). { pose proof (f_equal (firstn (length p)) E) as X. rewrite !firstn_app, Nat.sub_diag, firstn_all, firstn_O, app_nil_r in X. replace (length p - length s)%nat with O in X by lia. rewrite firstn_O, app_nil_r in X. symmetry. exact X. }
  exists (skipn (length p) s). split; [|exists (firstn (length p) s); symmetry; apply firstn_skipn].
  pose proof (firstn_skipn (length p) s) as F. rewrite <- P in F. rewrite <- F, <- app_assoc in E. apply app_inv_head in E. symmetry. exact E.
Qed.
Lemma ends_ge r s e : tail_of (r ++ e) s -> (length e <= length s)%nat.
Proof. intros T. apply tail_length in T. rewrite app_length in T. lia. Qed.
Lemma loc_skip s e : skip_ws (s ++ e) = skip_ws s ++ e \/ skip_ws (s ++ e) = skip_ws e /\ skip_ws s = [].
Proof. induction s as [|c s IH]; [right; split; reflexivity|]. cbn [app skip_ws]. destruct (is_ws c); [exact IH|left; reflexivity]. Qed.
Lemma loc_skip_cons s e c r : skip_ws (s ++ e) = c :: r -> (length e <= length r)%nat -> exists r', r = r' ++ e /\ skip_ws s = c :: r' .
Proof.
  intros E L. destruct (loc_skip s e) as [X|[X _]].
  - rewrite X in E. destruct (skip_ws s) as [|d q]; cbn [app] in E; [subst e; cbn [length] in L; lia|]. injection E as -> <-. exists q. split; reflexivity.
  - exfalso. pose proof (tail_skip e) as T. rewrite <- X, E in T. apply tail_length in T. cbn [length] in T. lia.
Qed.
Lemma loc_u4 s e u r : u4 (s ++ e) = Some (u, r) -> (length e <= length r)%nat -> exists s', r = s' ++ e /\ u4 s = Some (u, s') /\ tail_of s' s.
Proof.
  intros E L. pose proof (past_u4 _ _ _ E) as T. destruct (tail_split _ _ _ T L) as (s' & -> & T').
  assert (Ls : length (s ++ e) = (4 + length (s' ++ e))%nat). { clear -E. destruct (s ++ e) as [|a [|b [|c [|d q]]]]; try discriminate. cbn [u4] in E. destruct (hex_val a), (hex_val b), (hex_val c), (hex_val d); try discriminate. injection E as _ ->. reflexivity. }
  rewrite !app_length in Ls. destruct s as [|a [|b [|c [|d q]]]]; cbn [length] in Ls; try lia. cbn [app u4] in *. destruct (hex_val a), (hex_val b), (hex_val c), (hex_val d); try discriminate.
  injection E as <- X. apply app_inv_tail in X. subst q. exists s'. auto.
Qed.
Lemma loc_second u s e v r : second_half u (s ++ e) = Some (v, r) -> (length e <= length r)%nat -> exists s', r = s' ++ e /\ second_half u s = Some (v, s') /\ tail_of s' s.
Proof.
  intros E L. destruct s as [|b [|g s]].
  - exfalso. cbn [app] in E. destruct e as [|b [|g e]]; try discriminate. cbn [second_half] in E. destruct (_ && _); [|discriminate]. destruct (u4 e) as [[x y]|] eqn:U; [|discriminate]. destruct (_ && _); [|discriminate]. injection E as _ <-.
    apply past_u4, tail_length in U. cbn [length] in L. lia.
  - exfalso. cbn [app] in E. destruct e as [|g e]; try discriminate. cbn [second_half] in E. destruct (_ && _); [|discriminate]. destruct (u4 e) as [[x y]|] eqn:U; [|discriminate]. destruct (_ && _); [|discriminate]. injection E as _ <-.
    apply past_u4, tail_length in U. cbn [length] in L. lia.
  - cbn [app second_half] in *. destruct (_ && _); [|discriminate]. destruct (u4 (s ++ e)) as [[x y]|] eqn:U; [|discriminate]. destruct ((u <? 56320) && (56320 <=? x) && (x <? 57344)) eqn:C; [|discriminate]. injection E as <- <-.
    destruct (loc_u4 _ _ _ _ U L) as (s' & -> & U' & T). rewrite U', C. exists s'. split; [reflexivity|]. split; [reflexivity|]. apply past_tail, past_cons', past_tail, past_cons', T.
Qed.
Lemma second_none u s e : second_half u (s ++ e) = None -> second_half u s = None.
Proof.
  destruct s as [|b [|g s]]; [reflexivity|reflexivity|]. cbn [app second_half]. destruct (_ && _); [|reflexivity].
  destruct s as [|a1 [|a2 [|a3 [|a4 s]]]]; try reflexivity. cbn [app u4]. destruct (hex_val a1), (hex_val a2), (hex_val a3), (hex_val a4); try reflexivity. destruct (_ && _); [discriminate|reflexivity].
Qed.
Lemma size_zero c s e : utf8_size ((c :: s) ++ e) = O -> utf8_size (c :: s) = O.
Proof.
  cbn [app utf8_size]. cbv zeta. destruct (byte c <? 128); [discriminate|]. destruct (byte c <? 194); [reflexivity|]. destruct (byte c <? 224); [destruct s as [|b s]; [reflexivity|cbn [app]; auto]|].
  destruct (byte c <? 240); [destruct s as [|b [|d s]]; [reflexivity|reflexivity|cbn [app]; auto]|]. destruct (byte c <? 245); [destruct s as [|b [|d [|g s]]]; [reflexivity|reflexivity|reflexivity|cbn [app]; auto]|reflexivity].
Qed.
Lemma size_some c s e n : utf8_size ((c :: s) ++ e) = S n -> (n <= length s)%nat -> utf8_size (c :: s) = S n.
Proof.
  intros E L. cbn [app utf8_size] in *. cbv zeta in *. destruct (byte c <? 128); [exact E|]. destruct (byte c <? 194); [exact E|].
  destruct (byte c <? 224).
  { destruct s as [|b s]; [|exact E]. exfalso. cbn [app length] in *. destruct e as [|b e]; [discriminate|]. destruct (in_rng 128 191 b); [injection E as <-; lia|discriminate]. }
  destruct (byte c <? 240).
  { destruct s as [|b [|d s]]; [exfalso|exfalso|exact E]; cbn [app length] in *.
    - destruct e as [|b [|d e]]; try discriminate. destruct (_ && _); [injection E as <-; lia|discriminate].
    - destruct e as [|d e]; try discriminate. destruct (_ && _); [injection E as <-; lia|discriminate]. }
  destruct (byte c <? 245); [|exact E].
  destruct s as [|b [|d [|g s]]]; [exfalso|exfalso|exfalso|exact E]; cbn [app length] in *.
  - destruct e as [|b [|d [|g e]]]; try discriminate. destruct (_ && _); [injection E as <-; lia|discriminate].
  - destruct e as [|d [|g e]]; try discriminate. destruct (_ && _); [injection E as <-; lia|discriminate].
  - destruct e as [|g e]; try discriminate. destruct (_ && _); [injection E as <-; lia|discriminate].
Qed.
Lemma loc_unquote f : forall s e x r, unquote f (s ++ e) = Some (x, r ++ e) -> unquote f s = Some (x, r).
Proof.
  induction f as [|f IH]; intros s e x r E; [discriminate|]. pose proof (past_unquote _ _ _ _ E) as P. apply past_length in P. rewrite !app_length in P.
  destruct s as [|c s]; [cbn [length] in P; lia|]. cbn [app] in E. cbn [unquote] in E |- *.
  assert (A : forall a s1, add_to a (unquote f (s1 ++ e)) = Some (x, r ++ e) -> add_to a (unquote f s1) = Some (x, r)).
  { intros a s1 X. unfold add_to in *. destruct (unquote f (s1 ++ e)) as [[b r']|] eqn:U; [|discriminate]. injection X as <- ->. rewrite (IH _ _ _ _ U). reflexivity. }
  assert (G : forall a s1, add_to a (unquote f s1) = Some (x, r ++ e) -> (length e < length s1)%nat).
  { intros a s1 X. unfold add_to in X. destruct (unquote f s1) as [[b r']|] eqn:U; [|discriminate]. injection X as _ ->. apply past_unquote, past_length in U. rewrite app_length in U. lia. }
  destruct (byte c =? 34). { injection E as <- X. apply app_inv_tail in X. subst. reflexivity. }
  destruct (byte c =? 92).
  - destruct s as [|h s].
    + exfalso. cbn [app] in E. destruct e as [|h e]; [discriminate|]. destruct (simple_esc h); [apply G in E; cbn [length] in E; lia|]. destruct (byte h =? 117); [|discriminate]. destruct (u4 e) as [[u r2]|] eqn:U; [|discriminate].
      pose proof (tail_length _ _ (past_u4 _ _ _ U)) as L. destruct (surrogate u); [|apply G in E; cbn [length] in E; lia]. destruct (second_half u r2) as [[v r3]|] eqn:S2; [|apply G in E; cbn [length] in E; lia].
      pose proof (tail_length _ _ (past_second _ _ _ _ S2)). apply G in E. cbn [length] in E. lia.
    + cbn [app] in E. destruct (simple_esc h); [exact (A _ _ E)|]. destruct (byte h =? 117); [|discriminate]. destruct (u4 (s ++ e)) as [[u r2]|] eqn:U; [|discriminate].
      assert (L2 : (length e <= length r2)%nat). { destruct (surrogate u); [|apply G in E; lia]. destruct (second_half u r2) as [[v r3]|] eqn:S2; [|apply G in E; lia]. pose proof (tail_length _ _ (past_second _ _ _ _ S2)). apply G in E. lia. }
      destruct (loc_u4 _ _ _ _ U L2) as (s2 & -> & U' & _). rewrite U'. destruct (surrogate u); [|exact (A _ _ E)].
      destruct (second_half u (s2 ++ e)) as [[v r3]|] eqn:S2.
      * assert (L3 : (length e <= length r3)%nat) by (apply G in E; lia). destruct (loc_second _ _ _ _ _ S2 L3) as (s3 & -> & S2' & _). rewrite S2'. exact (A _ _ E).
      * rewrite (second_none _ _ _ S2). exact (A _ _ E).
  - destruct (byte c <? 32); [discriminate|]. change (c :: s ++ e) with ((c :: s) ++ e) in E. destruct (utf8_size ((c :: s) ++ e)) as [|n] eqn:Z.
    + rewrite (size_zero _ _ _ Z). exact (A _ _ E).
    + pose proof (G _ _ E) as L. rewrite skipn_length, app_length in L. cbn [length] in L. rewrite (size_some _ _ _ _ Z) by lia.
      rewrite firstn_app, skipn_app in E. replace (S n - length (c :: s))%nat with O in E by (cbn [length]; lia). rewrite firstn_O, app_nil_r in E. cbn [skipn] in E. exact (A _ _ E).
Qed.
Lemma loc_span s e a b : span_digits (s ++ e) = (a, b) -> (length e <= length b)%nat -> exists b', b = b' ++ e /\ span_digits s = (a, b') .
Proof.
  revert a b. induction s as [|c s IH]; intros a b E L.
  - cbn [app] in E. pose proof (span_spec _ _ _ E) as [X _]. assert (a = []) as -> by (apply (f_equal (@length ascii)) in X; rewrite app_length in X; destruct a; [reflexivity|cbn [length] in X; lia]). cbn [app] in X. subst b. exists []. split; reflexivity.
  - cbn [app span_digits] in *. destruct (is_digit c).
    + destruct (span_digits (s ++ e)) as [a' b'] eqn:S. injection E as <- <-. destruct (IH _ _ eq_refl L) as (b0 & -> & X). rewrite X. exists b0. split; reflexivity.
    + injection E as <- <-. exists (c :: s). split; reflexivity.
Qed.
Lemma loc_frac s e a b : num_frac (s ++ e) = Some (a, b) -> (length e <= length b)%nat -> exists b', b = b' ++ e /\ num_frac s = Some (a, b').
Proof.
  intros E L. destruct s as [|c s].
  - cbn [app] in E. destruct e as [|c e]; [injection E as <- <-; exists []; split; reflexivity|]. cbn [num_frac] in E. destruct (byte c =? 46); [|injection E as <- <-; exists []; split; reflexivity].
    exfalso. destruct (span_digits e) as [[|d a'] b'] eqn:S; [discriminate|]. injection E as _ <-. apply tail_span, tail_length in S. cbn [length] in L. lia.
  - cbn [app num_frac] in *. destruct (byte c =? 46); [|injection E as <- <-; exists (c :: s); split; reflexivity]. destruct (span_digits (s ++ e)) as [[|d a'] b'] eqn:S; [discriminate|]. injection E as <- <-.
    destruct (loc_span _ _ _ _ S L) as (b0 & -> & X). rewrite X. exists b0. split; reflexivity.
Qed.
Lemma loc_exp s e a b : num_exp (s ++ e) = Some (a, b) -> (length e <= length b)%nat -> exists b', b = b' ++ e /\ num_exp s = Some (a, b').
Proof.
  intros E L. destruct s as [|c s].
  - cbn [app] in E. destruct e as [|c e]; [injection E as <- <-; exists []; split; reflexivity|]. cbn [num_exp] in E. destruct (_ || _); [|injection E as <- <-; exists []; split; reflexivity].
    exfalso. destruct (match e with d :: r' => if (byte d =? 43) || (byte d =? 45) then ([d], r') else ([], e) | [] => ([], e) end) as [sg r1] eqn:G.
    assert (Tg : tail_of r1 e). { destruct e as [|d' r2]; [injection G as <- <-; apply tail_refl|]. destruct ((byte d' =? 43) || (byte d' =? 45)); injection G as <- <-; [apply past_tail, past_cons|apply tail_refl]. }
    destruct (span_digits r1) as [[|d a'] b'] eqn:S; [discriminate|]. injection E as _ <-. apply tail_span, tail_length in S. apply tail_length in Tg. cbn [length] in L. lia.
  - cbn [app num_exp] in *. destruct (_ || _); [|injection E as <- <-; exists (c :: s); split; reflexivity].
    destruct s as [|d s].
    + exfalso. cbn [app] in E. destruct (match e with d :: r' => if (byte d =? 43) || (byte d =? 45) then ([d], r') else ([], e) | [] => ([], e) end) as [sg r1] eqn:G.
      assert (Tg : tail_of r1 e). { destruct e as [|d' r2]; [injection G as <- <-; apply tail_refl|]. destruct ((byte d' =? 43) || (byte d' =? 45)); injection G as <- <-; [apply past_tail, past_cons|apply tail_refl]. }
      destruct (span_digits r1) as [[|d a'] b'] eqn:S; [discriminate|]. injection E as _ <-. pose proof (span_spec _ _ _ S) as [X _]. apply (f_equal (@length ascii)) in X. rewrite app_length in X. cbn [length] in X. apply tail_length in Tg. lia.
    + cbn [app] in E. destruct ((byte d =? 43) || (byte d =? 45)).
      * destruct (span_digits (s ++ e)) as [[|d1 a'] b'] eqn:S; [discriminate|]. injection E as <- <-. destruct (loc_span _ _ _ _ S L) as (b0 & -> & X). rewrite X. exists b0. split; reflexivity.
      * change (d :: s ++ e) with ((d :: s) ++ e) in E. destruct (span_digits ((d :: s) ++ e)) as [[|d1 a'] b'] eqn:S; [discriminate|]. injection E as <- <-. destruct (loc_span _ _ _ _ S L) as (b0 & -> & X). rewrite X. exists b0. split; reflexivity.
Qed.
Lemma loc_int s e a b : num_int (s ++ e) = Some (a, b) -> (length e <= length b)%nat -> exists b', b = b' ++ e /\ num_int s = Some (a, b').
Proof.
  intros E L. destruct s as [|c s].
  - exfalso. cbn [app] in E. destruct e as [|c e]; [discriminate|]. cbn [num_int] in E. destruct (byte c =? 48); [injection E as _ <-; cbn [length] in L; lia|].
    destruct (span_digits (c :: e)) as [[|d a'] b'] eqn:S; [discriminate|]. injection E as _ <-. pose proof (span_spec _ _ _ S) as [X _]. apply (f_equal (@length ascii)) in X. rewrite app_length in X. cbn [length] in X, L. lia.
  - cbn [app num_int] in *. destruct (byte c =? 48); [injection E as <- <-; exists s; split; reflexivity|]. change (c :: s ++ e) with ((c :: s) ++ e) in E. destruct (span_digits ((c :: s) ++ e)) as [[|d a'] b'] eqn:S; [discriminate|]. injection E as <- <-.
    destruct (loc_span _ _ _ _ S L) as (b0 & -> & X). rewrite X. exists b0. split; reflexivity.
Qed.
Lemma tail_frac s a b : num_frac s = Some (a, b) -> tail_of b s.
Proof. unfold num_frac. destruct s as [|c s]; [intros [= <- <-]; apply tail_refl|]. destruct (byte c =? 46); [|intros [= <- <-]; apply tail_refl]. destruct (span_digits s) as [[|d a'] b'] eqn:Es; [discriminate|]. intros [= <- <-]. apply past_tail, past_cons', (tail_span _ _ _ Es). Qed.
Lemma tail_exp s a b : num_exp s = Some (a, b) -> tail_of b s.
Proof.
  unfold num_exp. destruct s as [|c s]; [intros [= <- <-]; apply tail_refl|]. destruct ((byte c =? 101) || (byte c =? 69)); [|intros [= <- <-]; apply tail_refl].
  destruct (match s with d :: r' => if (byte d =? 43) || (byte d =? 45) then ([d], r') else ([], s) | [] => ([], s) end) as [sg' r1'] eqn:Eg.
  assert (Tg : tail_of r1' s). { destruct s as [|d' r2]; [injection Eg as <- <-; apply tail_refl|]. destruct ((byte d' =? 43) || (byte d' =? 45)); injection Eg as <- <-; [apply past_tail, past_cons|apply tail_refl]. }
  destruct (span_digits r1') as [[|d a'] b'] eqn:Es; [discriminate|]. intros [= <- <-]. apply past_tail, past_cons'. exact (tail_trans _ _ _ (tail_span _ _ _ Es) Tg).
Qed.
Lemma loc_num s e t r : scan_num (s ++ e) = Some (t, r ++ e) -> scan_num s = Some (t, r).
Proof.
  intros E. pose proof (past_length _ _ (past_num _ _ _ E)) as P. rewrite !app_length in P. destruct s as [|c s]; [cbn [length] in P; lia|]. cbn [app] in E. unfold scan_num in *.
  assert (K : forall sg s0, match num_int (s0 ++ e) with Some (i, r1) => match num_frac r1 with Some (fr, r2) => match num_exp r2 with Some (e0, r3) => Some (sg ++ i ++ fr ++ e0, r3) | None => None end | None => None end | None => None end = Some (t, r ++ e) ->
    match num_int s0 with Some (i, r1) => match num_frac r1 with Some (fr, r2) => match num_exp r2 with Some (e0, r3) => Some (sg ++ i ++ fr ++ e0, r3) | None => None end | None => None end | None => None end = Some (t, r)).
  { intros sg s0 X. destruct (num_int (s0 ++ e)) as [[i r1]|] eqn:E1; [|discriminate]. destruct (num_frac r1) as [[fr r2]|] eqn:E2; [|discriminate]. destruct (num_exp r2) as [[e0 r3]|] eqn:E3; [|discriminate]. injection X as <- ->.
    pose proof (tail_length _ _ (tail_frac _ _ _ E2)) as L2. pose proof (tail_length _ _ (tail_exp _ _ _ E3)) as L3. rewrite app_length in L3.
    destruct (loc_int _ _ _ _ E1 ltac:(lia)) as (q1 & -> & X1). rewrite X1. destruct (loc_frac _ _ _ _ E2 ltac:(lia)) as (q2 & -> & X2). rewrite X2. destruct (loc_exp _ _ _ _ E3 ltac:(rewrite app_length; lia)) as (q3 & Q & X3). apply app_inv_tail in Q. subst q3. rewrite X3. reflexivity. }
  destruct (byte c =? 45); [exact (K _ _ E)|]. change (c :: s ++ e) with ((c :: s) ++ e) in E. exact (K _ _ E).
Qed.
Lemma loc_prefix p s e r : p <> [] -> has_prefix p (s ++ e) = true -> skipn (length p) (s ++ e) = r ++ e -> has_prefix p s = true /\ skipn (length p) s = r.
Proof.
  intros N H K. apply has_prefix_spec in H as [t H]. rewrite H, skipn_app, Nat.sub_diag, skipn_all, skipn_O in K. cbn [app] in K. subst t. rewrite app_assoc in H. apply app_inv_tail in H. subst s.
  split; [apply has_prefix_spec; exists r; reflexivity|]. rewrite skipn_app, Nat.sub_diag, skipn_all. reflexivity.
Qed.
Lemma no_prefix p s e : has_prefix p (s ++ e) = false -> has_prefix p s = false.
Proof. intros H. destruct (has_prefix p s) eqn:E; [|reflexivity]. apply has_prefix_spec in E as [t ->]. rewrite <- app_assoc in H. assert (X : has_prefix p (p ++ t ++ e) = true) by (apply has_prefix_spec; exists (t ++ e); reflexivity). congruence. Qed.
Lemma unq_fuel f : forall s x r, unquote f s = Some (x, r) -> unquote (S (length s)) s = Some (x, r).
Proof.
  assert (M : forall n f s x r, (length s < n)%nat -> (length s < f)%nat -> forall g, unquote g s = Some (x, r) -> unquote f s = Some (x, r)).
  { induction n as [|n IH]; intros f0 s x r Ln Lf g E; [lia|]. destruct g as [|g]; [discriminate|]. destruct f0 as [|f0]; [lia|]. cbn [unquote] in *. destruct s as [|c s]; [discriminate|]. cbn [length] in *.
    assert (A : forall a s1, (length s1 <= length s)%nat -> add_to a (unquote g s1) = Some (x, r) -> add_to a (unquote f0 s1) = Some (x, r)).
    { intros a s1 L X. unfold add_to in *. destruct (unquote g s1) as [[b r']|] eqn:U; [|discriminate]. rewrite (IH f0 s1 b r' ltac:(lia) ltac:(lia) g U). exact X. }
    destruct (byte c =? 34); [exact E|]. destruct (byte c =? 92).
    - destruct s as [|h s]; [discriminate|]. cbn [length] in *. destruct (simple_esc h); [apply A; [lia|exact E]|]. destruct (byte h =? 117); [|discriminate]. destruct (u4 s) as [[u r2]|] eqn:U; [|discriminate]. pose proof (tail_length _ _ (past_u4 _ _ _ U)).
      destruct (surrogate u); [|apply A; [lia|exact E]]. destruct (second_half u r2) as [[v r3]|] eqn:S2; [pose proof (tail_length _ _ (past_second _ _ _ _ S2))|]; (apply A; [lia|exact E]).
    - destruct (byte c <? 32); [discriminate|]. destruct (utf8_size (c :: s)); [apply A; [lia|exact E]|]. apply A; [cbn [skipn]; rewrite skipn_length; lia|exact E]. }
  intros s x r E. exact (M (S (length s)) (S (length s)) s x r ltac:(lia) ltac:(lia) f E).
Qed.
Lemma some_pair {A C} (a a' : A) (b b' : C) : Some (a, b) = Some (a', b') -> a = a' /\ b = b'.
Proof. intros E. injection E as -> ->. auto. Qed.
Lemma jval_first f s v r : jval f s = Some (v, r) -> exists c r0, skip_ws s = c :: r0 /\ (length r <= length r0)%nat.
Proof.
  destruct f as [|f]; [discriminate|]. destruct (parse_fuel f) as (P1 & P2 & P3). intros E. cbn [jval] in E. destruct (skip_ws s) as [|c r0] eqn:Es; [discriminate|]. exists c, r0. split; [reflexivity|].
  destruct (byte c =? 34). { destruct (unquote _ r0) as [[x r']|] eqn:U; [|discriminate]. injection E as _ ->. apply past_unquote, past_length in U. lia. }
  destruct (byte c =? 91). { destruct (skip_ws r0) as [|d r1] eqn:Ed; [discriminate|]. destruct (byte d =? 93); [injection E as _ ->; apply skip_cons, past_length in Ed; lia|]. destruct (jelems f r0) as [[l r2]|] eqn:El; [|discriminate]. injection E as _ ->. apply P2 in El as [X _]. apply past_length in X. lia. }
  destruct (byte c =? 123). { destruct (skip_ws r0) as [|d r1] eqn:Ed; [discriminate|]. destruct (byte d =? 125); [injection E as _ ->; apply skip_cons, past_length in Ed; lia|]. destruct (jmembers f r0) as [[l r2]|] eqn:El; [|discriminate]. injection E as _ ->. apply P3 in El as [X _]. apply past_length in X. lia. }
  destruct (has_prefix (B "null") (c :: r0)); [apply some_pair in E as [_ E]; rewrite <- E; change (skipn 4 (c :: r0)) with (skipn 3 r0); rewrite skipn_length; lia|].
  destruct (has_prefix (B "true") (c :: r0)); [apply some_pair in E as [_ E]; rewrite <- E; change (skipn 4 (c :: r0)) with (skipn 3 r0); rewrite skipn_length; lia|].
  destruct (has_prefix (B "false") (c :: r0)); [apply some_pair in E as [_ E]; rewrite <- E; change (skipn 5 (c :: r0)) with (skipn 4 r0); rewrite skipn_length; lia|].
  destruct (scan_num (c :: r0)) as [[t r']|] eqn:En; [|discriminate]. injection E as _ ->. apply past_num, past_length in En. cbn [length] in En. lia.
Qed.
Lemma jelems_first f s l r : jelems f s = Some (l, r) -> exists v r0, jval (pred f) s = Some (v, r0) /\ past r r0 /\ exists c r1, skip_ws r0 = c :: r1 /\ (length r <= length r1)%nat.
Proof.
  destruct f as [|f]; [discriminate|]. intros E. cbn [jelems] in E. destruct (jval f s) as [[v0 r00]|] eqn:Ev; [|discriminate]. exists v0, r00. split; [exact Ev|].
  destruct (skip_ws r00) as [|c1 r11] eqn:Ec; [discriminate|]. pose proof (skip_cons _ _ _ Ec) as P.
  assert (T : tail_of r r11). { destruct (byte c1 =? 44); [|destruct (byte c1 =? 93); [injection E as _ ->; apply tail_refl|discriminate]]. destruct (jelems f r11) as [[l' r2']|] eqn:El'; [|discriminate]. injection E as _ ->. apply (proj1 (proj2 (parse_fuel f))) in El' as [Y _]. exact (past_tail _ _ Y). }
  split; [exact (past_trans_r _ _ _ T P)|]. exists c1, r11. split; [reflexivity|apply tail_length, T].
Qed.
Lemma jmembers_first f s l r : jmembers (S f) s = Some (l, r) ->
  exists q r' k r0 co r1 v r2 c r3, skip_ws s = q :: r' /\ unquote (S (length r')) r' = Some (k, r0) /\ skip_ws r0 = co :: r1 /\ jval f r1 = Some (v, r2) /\ skip_ws r2 = c :: r3 /\ tail_of r r3.
Proof.
  intros E. cbn [jmembers] in E. destruct (skip_ws s) as [|q r'] eqn:Es; [discriminate|]. destruct (negb (byte q =? 34)); [discriminate|]. destruct (unquote (S (length r')) r') as [[k r0]|] eqn:Eu; [|discriminate].
  destruct (skip_ws r0) as [|co r1] eqn:E0; [discriminate|]. destruct (negb (byte co =? 58)); [discriminate|]. destruct (jval f r1) as [[v r2]|] eqn:Ev; [|discriminate]. destruct (skip_ws r2) as [|c r3] eqn:E2; [discriminate|].
  exists q, r', k, r0, co, r1, v, r2, c, r3. split; [reflexivity|]. split; [exact Eu|]. split; [exact E0|]. split; [exact Ev|]. split; [exact E2|].
  destruct (byte c =? 44); [|destruct (byte c =? 125); [injection E as _ ->; apply tail_refl|discriminate]]. destruct (jmembers f r3) as [[l' r4]|] eqn:El; [|discriminate]. injection E as _ ->. apply (proj2 (proj2 (parse_fuel f))) in El as [Y _]. exact (past_tail _ _ Y).
Qed.
Lemma jelems_skip f s l r : jelems f s = Some (l, r) -> exists c r0, skip_ws s = c :: r0 /\ (length r <= length r0)%nat.
Proof.
  intros E. apply jelems_first in E as (v & r0 & Ev & P & _). apply jval_first in Ev as (c & r1 & E1 & L). apply past_length in P. exists c, r1. split; [exact E1|lia].
Qed.
Lemma jmembers_skip f s l r : jmembers f s = Some (l, r) -> exists c r0, skip_ws s = c :: r0 /\ (length r <= length r0)%nat.
Proof.
  destruct f as [|f]; [discriminate|]. intros E. apply jmembers_first in E as (q & r' & k & r0 & co & r1 & v & r2 & c & r3 & E1 & E2 & E3 & E4 & E5 & T). exists q, r'. split; [exact E1|].
  apply past_unquote, past_length in E2. apply skip_cons, past_length in E3. apply (proj1 (parse_fuel f)) in E4 as [E4 _]. apply past_length in E4. apply skip_cons, past_length in E5. apply tail_length in T. lia.
Qed.
Lemma loc_parse f :
  (forall s e v r, jval f (s ++ e) = Some (v, r ++ e) -> jval f s = Some (v, r)) /\
  (forall s e l r, jelems f (s ++ e) = Some (l, r ++ e) -> jelems f s = Some (l, r)) /\
  (forall s e l r, jmembers f (s ++ e) = Some (l, r ++ e) -> jmembers f s = Some (l, r)).
Proof.
  induction f as [|f (IH1 & IH2 & IH3)]; [split; [|split]; intros; discriminate|]. destruct (parse_fuel f) as (P1 & P2 & P3). split; [|split].
  - intros s e v r E. destruct (jval_first _ _ _ _ E) as (c & r0 & Es & Q). cbn [jval] in E |- *. rewrite Es in E.
    rewrite app_length in Q. destruct (loc_skip_cons _ _ _ _ Es ltac:(lia)) as (q & -> & Eq). rewrite Eq.
    destruct (byte c =? 34). { destruct (unquote (S (length (q ++ e))) (q ++ e)) as [[x r']|] eqn:U; [|discriminate]. injection E as <- ->. rewrite (unq_fuel _ _ _ _ (loc_unquote _ _ _ _ _ U)). reflexivity. }
    destruct (byte c =? 91).
    { destruct (skip_ws (q ++ e)) as [|d r1] eqn:Ed; [discriminate|]. assert (L1 : (length e <= length r1)%nat).
      { destruct (byte d =? 93); [injection E as _ ->; rewrite app_length; lia|]. destruct (jelems f (q ++ e)) as [[l r2]|] eqn:El; [|discriminate]. injection E as _ ->. apply jelems_skip in El as (c1 & r11 & Ed1 & L). rewrite Ed in Ed1. injection Ed1 as <- <-. rewrite app_length in L. lia. }
      destruct (loc_skip_cons _ _ _ _ Ed L1) as (q1 & -> & Eq1). rewrite Eq1. destruct (byte d =? 93); [injection E as <- X; apply app_inv_tail in X; subst; reflexivity|].
      destruct (jelems f (q ++ e)) as [[l r2]|] eqn:El; [|discriminate]. injection E as <- ->. rewrite (IH2 _ _ _ _ El). reflexivity. }
    destruct (byte c =? 123).
    { destruct (skip_ws (q ++ e)) as [|d r1] eqn:Ed; [discriminate|]. assert (L1 : (length e <= length r1)%nat).
      { destruct (byte d =? 125); [injection E as _ ->; rewrite app_length; lia|]. destruct (jmembers f (q ++ e)) as [[l r2]|] eqn:El; [|discriminate]. injection E as _ ->. apply jmembers_skip in El as (c1 & r11 & Ed1 & L). rewrite Ed in Ed1. injection Ed1 as <- <-. rewrite app_length in L. lia. }
      destruct (loc_skip_cons _ _ _ _ Ed L1) as (q1 & -> & Eq1). rewrite Eq1. destruct (byte d =? 125); [injection E as <- X; apply app_inv_tail in X; subst; reflexivity|].
      destruct (jmembers f (q ++ e)) as [[l r2]|] eqn:El; [|discriminate]. injection E as <- ->. rewrite (IH3 _ _ _ _ El). reflexivity. }
    assert (G : forall p n j, p <> [] -> length p = n -> has_prefix p (c :: q ++ e) = true -> Some (j, skipn n (c :: q ++ e)) = Some (v, r ++ e) -> has_prefix p (c :: q) = true /\ Some (j, skipn n (c :: q)) = Some (v, r)).
    { intros p n j N L H X. apply some_pair in X as [-> X]. subst n. destruct (loc_prefix p (c :: q) e r N H X) as [A ->]. auto. }
    destruct (has_prefix (B "null") (c :: q ++ e)) eqn:Hn. { destruct (G (B "null") 4%nat _ ltac:(discriminate) eq_refl Hn E) as [A A']. rewrite A. exact A'. }
    rewrite (no_prefix (B "null") (c :: q) e Hn).
    destruct (has_prefix (B "true") (c :: q ++ e)) eqn:Ht. { destruct (G (B "true") 4%nat _ ltac:(discriminate) eq_refl Ht E) as [A A']. rewrite A. exact A'. }
    rewrite (no_prefix (B "true") (c :: q) e Ht).
    destruct (has_prefix (B "false") (c :: q ++ e)) eqn:Hf. { destruct (G (B "false") 5%nat _ ltac:(discriminate) eq_refl Hf E) as [A A']. rewrite A. exact A'. }
    rewrite (no_prefix (B "false") (c :: q) e Hf).
    destruct (scan_num (c :: q ++ e)) as [[t r']|] eqn:En; [|discriminate]. injection E as <- ->. rewrite (loc_num (c :: q) e t r En). reflexivity.
  - intros s e l r E. pose proof E as E'. apply jelems_first in E' as (v & r0 & Ev & P & c & r1 & Ec & L). cbn [pred] in Ev. cbn [jelems] in E |- *. rewrite Ev, Ec in E. pose proof (past_length _ _ P) as LP. rewrite app_length in L, LP.
    destruct (P1 _ _ _ Ev) as [P0 _]. destruct (tail_split _ _ _ (past_tail _ _ P0) ltac:(lia)) as (q0 & -> & _). rewrite (IH1 _ _ _ _ Ev). destruct (loc_skip_cons _ _ _ _ Ec ltac:(lia)) as (q1 & -> & Eq). rewrite Eq.
    destruct (byte c =? 44). { destruct (jelems f (q1 ++ e)) as [[l' r2]|] eqn:El; [|discriminate]. injection E as <- ->. rewrite (IH2 _ _ _ _ El). reflexivity. }
    destruct (byte c =? 93); [|discriminate]. injection E as <- X. apply app_inv_tail in X. subst. reflexivity.
  - intros s e l r E. pose proof E as E'. apply jmembers_first in E' as (q & r' & k & r0 & co & r1 & v & r2 & c & r3 & E1 & E2 & E3 & E4 & E5 & T). cbn [jmembers] in E |- *. rewrite E1 in E.
    pose proof (past_unquote _ _ _ _ E2) as T2. pose proof (skip_cons _ _ _ E3) as T3. destruct (P1 _ _ _ E4) as [T4 _]. pose proof (skip_cons _ _ _ E5) as T5.
    pose proof (past_length _ _ T2) as L2. pose proof (past_length _ _ T3) as L3. pose proof (past_length _ _ T4) as L4. pose proof (past_length _ _ T5) as L5. pose proof (tail_length _ _ T) as LT. rewrite app_length in LT.
    destruct (loc_skip_cons _ _ _ _ E1 ltac:(lia)) as (q' & -> & F1). rewrite F1. destruct (negb (byte q =? 34)); [discriminate|]. rewrite E2 in E.
    destruct (tail_split _ _ _ (past_tail _ _ T2) ltac:(lia)) as (q0 & -> & _). rewrite (unq_fuel _ _ _ _ (loc_unquote _ _ _ _ _ E2)). rewrite E3 in E. destruct (loc_skip_cons _ _ _ _ E3 ltac:(lia)) as (q1 & -> & F3). rewrite F3.
    destruct (negb (byte co =? 58)); [discriminate|]. rewrite E4 in E. destruct (tail_split _ _ _ (past_tail _ _ T4) ltac:(lia)) as (q2 & -> & _). rewrite (IH1 _ _ _ _ E4). rewrite E5 in E. destruct (loc_skip_cons _ _ _ _ E5 ltac:(lia)) as (q3 & -> & F5). rewrite F5.
    destruct (byte c =? 44). { destruct (jmembers f (q3 ++ e)) as [[l' r4]|] eqn:El; [|discriminate]. injection E as <- ->. rewrite (IH3 _ _ _ _ El). reflexivity. }
    destruct (byte c =? 125); [|discriminate]. injection E as <- X. apply app_inv_tail in X. subst. reflexivity.
Qed.

(** ** The members and elements of any text *)
Lemma ws_none s : is_empty (skip_ws s) = true -> skip_ws s = []. Proof. destruct (skip_ws s); [reflexivity|discriminate]. Qed.
Lemma skip_idem s : skip_ws (skip_ws s) = skip_ws s.
Proof. induction s as [|c s IH]; [reflexivity|]. cbn [skip_ws]. destruct (is_ws c) eqn:E; [exact IH|]. cbn [skip_ws]. rewrite E. reflexivity. Qed.
Lemma jval_skip f s : jval f (skip_ws s) = jval f s.
Proof. destruct f; [reflexivity|]. cbn [jval]. rewrite skip_idem. reflexivity. Qed.
Lemma next_of f s v r : jval f s = Some (v, r) -> exists t, next_value s = Some (v, t, r) /\ parse_json t = Some v /\ skip_ws t = t /\ skip_ws s = t ++ r.
Proof.
  rewrite <- jval_skip. set (s1 := skip_ws s). intros E. destruct (proj1 (parse_fuel f) _ _ _ E) as [(t & Nt & Et) G]. exists t.
  assert (S1 : skip_ws s1 = s1) by apply skip_idem.
  assert (St : skip_ws t = t). { rewrite Et in S1. destruct t as [|c t]; [congruence|]. cbn [skip_ws app] in S1 |- *. destruct (is_ws c); [|reflexivity]. exfalso. pose proof (tail_length _ _ (tail_skip (t ++ r))) as L. rewrite S1 in L. cbn [length] in L. lia. }
  split; [|split; [|split; [exact St|exact Et]]].
  - unfold next_value. fold s1. rewrite G by lia. rewrite Et, app_length, Nat.add_sub, firstn_app, firstn_all, Nat.sub_diag, firstn_O, app_nil_r. reflexivity.
  - unfold parse_json. rewrite Et in E. pose proof (proj1 (loc_parse f) t r v [] E) as X. destruct (proj1 (parse_fuel f) _ _ _ X) as [_ G']. rewrite G' by lia. reflexivity.
Qed.
Lemma elements_of n : forall f s l r, (length s < n)%nat -> jelems f s = Some (l, r) ->
  map fst (elements n s) = l /\ Forall (fun p => parse_json (snd p) = Some (fst p) /\ skip_ws (snd p) = snd p) (elements n s).
Proof.
  induction n as [|n IH]; intros f s l r L E; [lia|]. pose proof E as E'. apply jelems_first in E' as (v & r0 & Ev & _). destruct f as [|f]; [discriminate|]. cbn [pred] in Ev. cbn [jelems] in E. rewrite Ev in E.
  destruct (next_of _ _ _ _ Ev) as (t & Nx & Pt & St & _). cbn [elements]. rewrite Nx. destruct (skip_ws r0) as [|c r1] eqn:Ec; [discriminate|].
  pose proof (past_length _ _ (proj1 (proj1 (parse_fuel f) _ _ _ Ev))) as L0. pose proof (past_length _ _ (skip_cons _ _ _ Ec)) as L1.
  destruct (byte c =? 44).
  - destruct (jelems f r1) as [[l' r2]|] eqn:El; [|discriminate]. injection E as <- ->. destruct (IH f r1 l' r ltac:(lia) El) as [A F]. split; [cbn [map fst]; rewrite A; reflexivity|constructor; [split; assumption|exact F]].
  - destruct (byte c =? 93); [|discriminate]. injection E as <- ->. split; [reflexivity|constructor; [split; assumption|constructor]].
Qed.
Lemma fields_of_of n : forall f s l r, (length s < n)%nat -> jmembers f s = Some (l, r) ->
  map (fun p => (fst p, fst (snd p))) (fields_of n s) = l /\ Forall (fun p => parse_json (snd (snd p)) = Some (fst (snd p)) /\ skip_ws (snd (snd p)) = snd (snd p)) (fields_of n s).
Proof.
  induction n as [|n IH]; intros f s l r L E; [lia|]. destruct f as [|f]; [discriminate|]. pose proof E as E'. apply jmembers_first in E' as (q & r' & k & r0 & co & r1 & v & r2 & c & r3 & E1 & E2 & E3 & E4 & E5 & _).
  cbn [jmembers] in E. cbn [fields_of]. rewrite E1 in E |- *. destruct (negb (byte q =? 34)); [discriminate|]. rewrite E2 in E |- *. rewrite E3 in E |- *. destruct (negb (byte co =? 58)); [discriminate|]. rewrite E4 in E. rewrite E5 in E.
  destruct (next_of _ _ _ _ E4) as (t & Nx & Pt & St & _). rewrite Nx, E5.
  pose proof (past_length _ _ (skip_cons _ _ _ E1)) as L1. pose proof (past_length _ _ (past_unquote _ _ _ _ E2)) as L2. pose proof (past_length _ _ (skip_cons _ _ _ E3)) as L3. pose proof (past_length _ _ (proj1 (proj1 (parse_fuel f) _ _ _ E4))) as L4. pose proof (past_length _ _ (skip_cons _ _ _ E5)) as L5.
  destruct (byte c =? 44).
  - destruct (jmembers f r3) as [[l' r4]|] eqn:El; [|discriminate]. injection E as <- ->. destruct (IH f r3 l' r ltac:(lia) El) as [A F]. split; [cbn [map fst snd]; rewrite A; reflexivity|constructor; [split; assumption|exact F]].
  - destruct (byte c =? 125); [|discriminate]. injection E as <- ->. split; [reflexivity|constructor; [split; assumption|constructor]].
Qed.
(** The fuel of the scanners is the length of the text, which is enough because the
    last value is followed by a bracket. *)
Lemma elements_more n : forall f s l r, (length s <= n)%nat -> jelems f s = Some (l, r) -> elements n s = elements (S n) s.
Proof.
  induction n as [|n IH]; intros f s l r L E.
  - destruct (jelems_skip _ _ _ _ E) as (c & r0 & Es & _). destruct s; [discriminate|cbn [length] in L; lia].
  - pose proof E as E'. apply jelems_first in E' as (v & r0 & Ev & _). destruct f as [|f]; [discriminate|]. cbn [pred] in Ev. cbn [jelems] in E. rewrite Ev in E.
    destruct (next_of _ _ _ _ Ev) as (t & Nx & _). change (elements (S n) s) with (match next_value s with None => [] | Some (v, t, r) => (v, t) :: match skip_ws r with c :: r1 => if byte c =? 44 then elements n r1 else [] | [] => [] end end).
    change (elements (S (S n)) s) with (match next_value s with None => [] | Some (v, t, r) => (v, t) :: match skip_ws r with c :: r1 => if byte c =? 44 then elements (S n) r1 else [] | [] => [] end end).
    rewrite Nx. f_equal. destruct (skip_ws r0) as [|c r1] eqn:Ec; [reflexivity|]. destruct (byte c =? 44); [|reflexivity]. destruct (jelems f r1) as [[l' r2]|] eqn:El; [|discriminate].
    pose proof (past_length _ _ (proj1 (proj1 (parse_fuel f) _ _ _ Ev))) as L0. pose proof (past_length _ _ (skip_cons _ _ _ Ec)) as L1. apply (IH f r1 l' r2); [lia|exact El].
Qed.
Lemma fields_more n : forall f s l r, (length s <= n)%nat -> jmembers f s = Some (l, r) -> fields_of n s = fields_of (S n) s.
Proof.
  induction n as [|n IH]; intros f s l r L E.
  - destruct (jmembers_skip _ _ _ _ E) as (c & r0 & Es & _). destruct s; [discriminate|cbn [length] in L; lia].
  - destruct f as [|f]; [discriminate|]. pose proof E as E'. apply jmembers_first in E' as (q & r' & k & r0 & co & r1 & v & r2 & c & r3 & E1 & E2 & E3 & E4 & E5 & _).
    cbn [jmembers] in E. rewrite E1, E2, E3, E4, E5 in E. destruct (negb (byte q =? 34)); [discriminate|]. destruct (negb (byte co =? 58)); [discriminate|].
    destruct (next_of _ _ _ _ E4) as (t & Nx & _). set (m := S n) at 2. cbn [fields_of]. rewrite E1, E2, E3, Nx, E5. f_equal. destruct (byte c =? 44); [|reflexivity]. destruct (jmembers f r3) as [[l' r4]|] eqn:El; [|discriminate].
    pose proof (past_length _ _ (skip_cons _ _ _ E1)) as L1. pose proof (past_length _ _ (past_unquote _ _ _ _ E2)) as L2. pose proof (past_length _ _ (skip_cons _ _ _ E3)) as L3. pose proof (past_length _ _ (proj1 (proj1 (parse_fuel f) _ _ _ E4))) as L4. pose proof (past_length _ _ (skip_cons _ _ _ E5)) as L5.
    unfold m. apply (IH f r3 l' r4); [lia|exact El].
Qed.
Lemma skip_head s c r : skip_ws s = c :: r -> skip_ws s = s -> s = c :: r. Proof. congruence. Qed.
Lemma parts_array t l : parse_json t = Some (JArr l) -> map fst (array_parts (skip_ws t)) = l /\ Forall (fun p => parse_json (snd p) = Some (fst p) /\ skip_ws (snd p) = snd p) (array_parts (skip_ws t)).
Proof.
  unfold parse_json. destruct (jval (2 * length t + 2) t) as [[v r]|] eqn:E; [|discriminate]. destruct (is_empty (skip_ws r)); [|discriminate]. intros [= ->]. remember (2 * length t + 2)%nat as f eqn:Ef. clear Ef. destruct f as [|f]; [discriminate|]. cbn [jval] in E.
  destruct (skip_ws t) as [|c r0]; [discriminate|]. destruct (byte c =? 34); [destruct (unquote _ _) as [[? ?]|]; discriminate|]. destruct (byte c =? 91).
  - cbn [array_parts]. destruct (skip_ws r0) as [|d r1] eqn:Ed; [discriminate|]. destruct (byte d =? 93); [injection E as <- _; split; [reflexivity|constructor]|]. destruct (jelems f r0) as [[l' r2]|] eqn:El; [|discriminate]. injection E as -> ->.
    rewrite (elements_more _ f r0 l r (le_n _) El). exact (elements_of (S (length r0)) f r0 l r (le_n _) El).
  - destruct (byte c =? 123); [destruct (skip_ws r0) as [|d r1]; [discriminate|]; destruct (byte d =? 125); [discriminate|]; destruct (jmembers f r0) as [[? ?]|]; discriminate|].
    destruct (has_prefix _ _); [discriminate|]. destruct (has_prefix _ _); [discriminate|]. destruct (has_prefix _ _); [discriminate|]. destruct (scan_num _) as [[? ?]|]; discriminate.
Qed.
Lemma parts_object t l : parse_json t = Some (JObj l) -> map (fun p => (fst p, fst (snd p))) (object_parts (skip_ws t)) = l /\ Forall (fun p => parse_json (snd (snd p)) = Some (fst (snd p)) /\ skip_ws (snd (snd p)) = snd (snd p)) (object_parts (skip_ws t)).
Proof.
  unfold parse_json. destruct (jval (2 * length t + 2) t) as [[v r]|] eqn:E; [|discriminate]. destruct (is_empty (skip_ws r)); [|discriminate]. intros [= ->]. remember (2 * length t + 2)%nat as f eqn:Ef. clear Ef. destruct f as [|f]; [discriminate|]. cbn [jval] in E.
  destruct (skip_ws t) as [|c r0]; [discriminate|]. destruct (byte c =? 34); [destruct (unquote _ _) as [[? ?]|]; discriminate|]. destruct (byte c =? 91); [destruct (skip_ws r0) as [|d r1]; [discriminate|]; destruct (byte d =? 93); [discriminate|]; destruct (jelems f r0) as [[? ?]|]; discriminate|]. destruct (byte c =? 123).
  - cbn [object_parts]. destruct (skip_ws r0) as [|d r1] eqn:Ed; [discriminate|]. destruct (byte d =? 125); [injection E as <- _; split; [reflexivity|constructor]|]. destruct (jmembers f r0) as [[l' r2]|] eqn:El; [|discriminate]. injection E as -> ->.
    rewrite (fields_more _ f r0 l r (le_n _) El). exact (fields_of_of (S (length r0)) f r0 l r (le_n _) El).
  - destruct (has_prefix _ _); [discriminate|]. destruct (has_prefix _ _); [discriminate|]. destruct (has_prefix _ _); [discriminate|]. destruct (scan_num _) as [[? ?]|]; discriminate.
Qed.
