(** The scanner accepts exactly the grammar. *)
From Verif Require Import GoBase GoBaseFacts IdModel TypeModel ParamModel JsonModel JsonSpec JsonProofs JsonGrammar JsonGrammarProofs RecordProofs RecordLocal.
From Coq Require Import Lia.
Open Scope Z_scope.

Lemma blank_is c : is_ws c = true <-> blank c.
Proof. unfold is_ws, blank. cbv zeta. rewrite !orb_true_iff, !Z.eqb_eq. tauto. Qed.
Lemma skip_split s : exists a, s = a ++ skip_ws s /\ blanks a.
Proof.
  induction s as [|c s (a & E & Ba)]; [exists []; split; [reflexivity|constructor]|]. cbn [skip_ws]. destruct (is_ws c) eqn:W; [|exists []; split; [reflexivity|constructor]].
  exists (c :: a). split; [cbn [app]; rewrite <- E; reflexivity|]. constructor; [apply blank_is, W|exact Ba].
Qed.
Lemma skip_blanks a s : blanks a -> skip_ws (a ++ s) = skip_ws s.
Proof. induction 1 as [|c a W _ IH]; [reflexivity|]. cbn [app skip_ws]. apply blank_is in W. rewrite W. exact IH. Qed.
Lemma skip_blanks' a : blanks a -> skip_ws a = []. Proof. intros H. rewrite <- (app_nil_r a), (skip_blanks a [] H). reflexivity. Qed.
Definition solid (s : bytes) : Prop := match s with c :: _ => ~ blank c | [] => True end.
Lemma skip_solid s : solid s -> skip_ws s = s.
Proof. destruct s as [|c s]; [reflexivity|]. intros H. cbn [skip_ws]. destruct (is_ws c) eqn:W; [|reflexivity]. apply blank_is in W. contradiction. Qed.

(** ** What is accepted is in the grammar *)
Lemma prefix_split p s n : length p = n -> has_prefix p s = true -> s = p ++ skipn n s.
Proof. intros <- H. apply has_prefix_spec in H as [t ->]. rewrite skipn_app, Nat.sub_diag, skipn_all. reflexivity. Qed.
Lemma sound f :
  (forall s v r, jval f s = Some (v, r) -> exists a t, s = a ++ t ++ r /\ blanks a /\ is_value t v) /\
  (forall s l r, jelems f s = Some (l, r) -> exists t, s = t ++ B "]" ++ r /\ is_elements t l) /\
  (forall s l r, jmembers f s = Some (l, r) -> exists t, s = t ++ B "}" ++ r /\ is_members t l).
Proof.
  induction f as [|f (IH1 & IH2 & IH3)]; [split; [|split]; intros; discriminate|]. split; [|split].
  - intros s v r E. cbn [jval] in E. destruct (skip_split s) as (a & Es & Ba). exists a. destruct (skip_ws s) as [|c r0]; [discriminate|].
    assert (G : exists t, c :: r0 = t ++ r /\ is_value t v); [|destruct G as (t & G & V); exists t; rewrite Es, G; auto].
    destruct (Z.eqb_spec (byte c) 34) as [H|]. { destruct (unquote _ r0) as [[x r']|] eqn:U; [|discriminate]. injection E as <- ->. destruct (unquote_sound _ _ _ _ U) as (b & -> & Cb). exists ([dquote] ++ b ++ [dquote]). rewrite (ascii_byte c 34 H ltac:(lia)), <- !app_assoc. split; [reflexivity|]. constructor. exists b. auto. }
    destruct (Z.eqb_spec (byte c) 91) as [H|].
    { rewrite (ascii_byte c 91 H ltac:(lia)). destruct (skip_split r0) as (w & Ew & Bw). destruct (skip_ws r0) as [|d r1]; [discriminate|]. destruct (Z.eqb_spec (byte d) 93) as [Hd|].
      - injection E as <- ->. exists (B "[" ++ w ++ B "]"). rewrite Ew, (ascii_byte d 93 Hd ltac:(lia)), <- !app_assoc. split; [reflexivity|]. constructor. exact Bw.
      - destruct (jelems f r0) as [[l r2]|] eqn:El; [|discriminate]. injection E as <- ->. destruct (IH2 _ _ _ El) as (t & -> & T). exists (B "[" ++ t ++ B "]"). rewrite <- !app_assoc. split; [reflexivity|]. constructor. exact T. }
    destruct (Z.eqb_spec (byte c) 123) as [H|].
    { rewrite (ascii_byte c 123 H ltac:(lia)). destruct (skip_split r0) as (w & Ew & Bw). destruct (skip_ws r0) as [|d r1]; [discriminate|]. destruct (Z.eqb_spec (byte d) 125) as [Hd|].
      - injection E as <- ->. exists (B "{" ++ w ++ B "}"). rewrite Ew, (ascii_byte d 125 Hd ltac:(lia)), <- !app_assoc. split; [reflexivity|]. constructor. exact Bw.
      - destruct (jmembers f r0) as [[l r2]|] eqn:El; [|discriminate]. injection E as <- ->. destruct (IH3 _ _ _ El) as (t & -> & T). exists (B "{" ++ t ++ B "}"). rewrite <- !app_assoc. split; [reflexivity|]. constructor. exact T. }
    destruct (has_prefix (B "null") (c :: r0)) eqn:P1. { apply some_pair in E as [<- <-]. exists (B "null"). split; [exact (prefix_split (B "null") _ 4 eq_refl P1)|constructor]. }
    destruct (has_prefix (B "true") (c :: r0)) eqn:P2. { apply some_pair in E as [<- <-]. exists (B "true"). split; [exact (prefix_split (B "true") _ 4 eq_refl P2)|constructor]. }
    destruct (has_prefix (B "false") (c :: r0)) eqn:P3. { apply some_pair in E as [<- <-]. exists (B "false"). split; [exact (prefix_split (B "false") _ 5 eq_refl P3)|constructor]. }
    destruct (scan_num (c :: r0)) as [[t r']|] eqn:En; [|discriminate]. injection E as <- ->. destruct (num_sound _ _ _ En) as [X N]. exists t. split; [exact X|constructor; exact N].
  - intros s l r E. cbn [jelems] in E. destruct (jval f s) as [[v r0]|] eqn:Ev; [|discriminate]. destruct (IH1 _ _ _ Ev) as (a & t & -> & Ba & V). destruct (skip_split r0) as (b & Eb & Bb). destruct (skip_ws r0) as [|c r1]; [discriminate|]. destruct (Z.eqb_spec (byte c) 44) as [H|].
    + destruct (jelems f r1) as [[l' r2]|] eqn:El; [|discriminate]. injection E as <- ->. destruct (IH2 _ _ _ El) as (s' & Es & T). exists (a ++ t ++ b ++ B "," ++ s'). rewrite Eb, Es, (ascii_byte c 44 H ltac:(lia)), <- !app_assoc. split; [reflexivity|]. constructor; assumption.
    + destruct (Z.eqb_spec (byte c) 93) as [H|]; [|discriminate]. injection E as <- ->. exists (a ++ t ++ b). rewrite Eb, (ascii_byte c 93 H ltac:(lia)), <- !app_assoc. split; [reflexivity|]. constructor; assumption.
  - intros s l r E. cbn [jmembers] in E. destruct (skip_split s) as (a & Es & Ba). destruct (skip_ws s) as [|q r']; [discriminate|]. destruct (Z.eqb_spec (byte q) 34) as [Hq|]; cbn [negb] in E; [|discriminate]. destruct (unquote (S (length r')) r') as [[k r0]|] eqn:U; [|discriminate].
    destruct (unquote_sound _ _ _ _ U) as (kb & Ek & Ck). destruct (skip_split r0) as (b & Eb & Bb). destruct (skip_ws r0) as [|co r1]; [discriminate|]. destruct (Z.eqb_spec (byte co) 58) as [Hc|]; cbn [negb] in E; [|discriminate]. destruct (jval f r1) as [[v r2]|] eqn:Ev; [|discriminate].
    destruct (IH1 _ _ _ Ev) as (a' & t & Et & Ba' & V). destruct (skip_split r2) as (b' & Eb' & Bb'). destruct (skip_ws r2) as [|c r3]; [discriminate|].
    assert (SK : is_string ([dquote] ++ kb ++ [dquote]) k) by (exists kb; auto).
    assert (X : s = a ++ ([dquote] ++ kb ++ [dquote]) ++ b ++ B ":" ++ a' ++ t ++ b' ++ c :: r3). { rewrite Es, Ek, Eb, Et, Eb', (ascii_byte q 34 Hq ltac:(lia)), (ascii_byte co 58 Hc ltac:(lia)), <- !app_assoc. reflexivity. }
    clear Ek Ck. set (K := [dquote] ++ kb ++ [dquote]) in *. clearbody K.
    destruct (Z.eqb_spec (byte c) 44) as [H|].
    + destruct (jmembers f r3) as [[l' r4]|] eqn:El; [|discriminate]. injection E as <- ->. destruct (IH3 _ _ _ El) as (s' & Es' & T). exists (a ++ K ++ b ++ B ":" ++ a' ++ t ++ b' ++ B "," ++ s'). rewrite X, Es', (ascii_byte c 44 H ltac:(lia)), <- !app_assoc. split; [reflexivity|]. constructor; assumption.
    + destruct (Z.eqb_spec (byte c) 125) as [H|]; [|discriminate]. injection E as <- ->. exists (a ++ K ++ b ++ B ":" ++ a' ++ t ++ b'). rewrite X, (ascii_byte c 125 H ltac:(lia)), <- !app_assoc. split; [reflexivity|]. constructor; assumption.
Qed.

(** ** What is in the grammar is accepted *)
Scheme value_ind3 := Induction for is_value Sort Prop
  with elements_ind3 := Induction for is_elements Sort Prop
  with members_ind3 := Induction for is_members Sort Prop.
Combined Scheme grammar_ind from value_ind3, elements_ind3, members_ind3.
Lemma ends_blanks b e : blanks b -> num_end e -> num_end (b ++ e).
Proof. destruct 1 as [|c b H _]; [auto|]. intros _. cbn. unfold blank in H. lia. Qed.
Lemma value_head t v : is_value t v -> exists c r, t = c :: r /\ ~ blank c /\ byte c <> 93 /\ byte c <> 125.
Proof.
  destruct 1 as [| | |t N|t s (b & -> & _)|w _|s l _|w _|s l _]; try (eexists _, _; split; [reflexivity|]; unfold blank; vm_compute; repeat split; (discriminate || (intros [X|[X|[X|X]]]; discriminate X))).
  destruct N as (sg & i & fr & e & -> & Hs & Hi & _). assert (X : exists c r, sg ++ i ++ fr ++ e = c :: r /\ (byte c = 45 \/ 48 <= byte c <= 57)).
  { destruct Hs as [->| ->]; [|eexists _, _; split; [reflexivity|left; reflexivity]]. destruct Hi as [->|(c & d & -> & Hc & _)]; [eexists _, _; split; [reflexivity|]; right; vm_compute; split; discriminate|]. exists c, (d ++ fr ++ e). split; [reflexivity|right; lia]. }
  destruct X as (c & r & -> & Hc). exists c, r. split; [reflexivity|]. unfold blank. lia.
Qed.
Lemma elements_head s l : is_elements s l -> exists c r, skip_ws s = c :: r /\ byte c <> 93 /\ forall e, skip_ws (s ++ e) = skip_ws s ++ e.
Proof.
  destruct 1 as [a t b v Ba V _|a t b v s l Ba V _ _]; destruct (value_head _ _ V) as (c & r & -> & N & N1 & _); rewrite (skip_blanks a _ Ba); (rewrite skip_solid; [|exact N]); eexists _, _; (split; [reflexivity|]); (split; [exact N1|]);
    intros e; rewrite <- app_assoc, (skip_blanks a _ Ba); (rewrite skip_solid; [|exact N]); rewrite <- ?app_assoc; reflexivity.
Qed.
Lemma members_head s l : is_members s l -> exists c r, skip_ws s = c :: r /\ byte c <> 125 /\ forall e, skip_ws (s ++ e) = skip_ws s ++ e.
Proof.
  assert (N : ~ blank dquote) by (unfold blank; vm_compute; intros [X|[X|[X|X]]]; discriminate X).
  destruct 1 as [a k n b a' t b' v Ba (kb & -> & _) _ _ _ _|a k n b a' t b' v s l Ba (kb & -> & _) _ _ _ _ _]; rewrite (skip_blanks a _ Ba); (rewrite skip_solid; [|exact N]); eexists _, _; (split; [reflexivity|]); (split; [vm_compute; discriminate|]);
    intros e; rewrite <- app_assoc, (skip_blanks a _ Ba); (rewrite skip_solid; [|exact N]); rewrite <- ?app_assoc; reflexivity.
Qed.
Lemma complete :
  (forall t v, is_value t v -> forall f e, num_end e -> (2 * length t < f)%nat -> jval f (t ++ e) = Some (v, e)) /\
  (forall s l, is_elements s l -> forall f e, (2 * length s + 1 < f)%nat -> jelems f (s ++ B "]" ++ e) = Some (l, e)) /\
  (forall s l, is_members s l -> forall f e, (2 * length s + 1 < f)%nat -> jmembers f (s ++ B "}" ++ e) = Some (l, e)).
Proof.
  apply (grammar_ind (fun t v _ => forall f e, num_end e -> (2 * length t < f)%nat -> jval f (t ++ e) = Some (v, e))
    (fun s l _ => forall f e, (2 * length s + 1 < f)%nat -> jelems f (s ++ B "]" ++ e) = Some (l, e))
    (fun s l _ => forall f e, (2 * length s + 1 < f)%nat -> jmembers f (s ++ B "}" ++ e) = Some (l, e))).
  - intros [|f] e _ L; [lia|]. reflexivity.
  - intros [|f] e _ L; [lia|]. reflexivity.
  - intros [|f] e _ L; [lia|]. reflexivity.
  - intros t N [|f] e He L; [lia|]. pose proof (num_complete t N) as Sn. destruct (value_head t (JNum t) (v_number t N)) as (c & r & Et & Nb & _). pose proof (scan_num_app _ _ _ e He Sn) as Sa. cbn [app] in Sa. rewrite Et in Sn, Sa |- *. cbn [app] in Sa |- *.
    pose proof (scan_num_head _ _ _ _ Sn) as Hc. cbn [jval]. rewrite (skip_solid (c :: r ++ e) Nb). destruct (Z.eqb_spec (byte c) 34); [lia|]. destruct (Z.eqb_spec (byte c) 91); [lia|]. destruct (Z.eqb_spec (byte c) 123); [lia|].
    assert (PH : forall x p, byte x <> byte c -> has_prefix (x :: p) (c :: r ++ e) = false) by (intros; apply prefix_head; assumption).
    change (B "null") with ("n"%char :: B "ull"). change (B "true") with ("t"%char :: B "rue"). change (B "false") with ("f"%char :: B "alse").
    rewrite !PH; [rewrite Sa; reflexivity|..]; [change (byte "f"%char) with 102|change (byte "t"%char) with 116|change (byte "n"%char) with 110]; lia.
  - intros t s (b & -> & Cb) [|f] e He L; [lia|]. rewrite <- !app_assoc. cbn [app jval]. rewrite skip_solid by (unfold solid, blank; vm_compute; intros [X|[X|[X|X]]]; discriminate X). change (byte dquote =? 34) with true. cbv iota.
    rewrite (unquote_complete b s Cb) by (rewrite app_length; lia). reflexivity.
  - intros w Bw [|f] e He L; [lia|]. rewrite <- !app_assoc. cbn [B list_ascii_of_string app jval]. rewrite skip_solid by (unfold solid, blank; vm_compute; intros [X|[X|[X|X]]]; discriminate X). change (byte "["%char =? 34) with false. change (byte "["%char =? 91) with true. cbv iota. rewrite (skip_blanks w _ Bw). reflexivity.
  - intros s l E IH [|f] e He L; [lia|]. rewrite <- !app_assoc. cbn [B list_ascii_of_string app jval]. rewrite skip_solid by (unfold solid, blank; vm_compute; intros [X|[X|[X|X]]]; discriminate X). change (byte "["%char =? 34) with false. change (byte "["%char =? 91) with true. cbv iota.
    destruct (elements_head s l E) as (c & r & Es & Nc & Ap). rewrite Ap, Es. cbn [app]. destruct (Z.eqb_spec (byte c) 93); [contradiction|]. change ("]"%char :: e) with (B "]" ++ e). rewrite IH; [reflexivity|]. cbn [B list_ascii_of_string app length] in L. rewrite app_length in L. cbn [length] in L. lia.
  - intros w Bw [|f] e He L; [lia|]. rewrite <- !app_assoc. cbn [B list_ascii_of_string app jval]. rewrite skip_solid by (unfold solid, blank; vm_compute; intros [X|[X|[X|X]]]; discriminate X). change (byte "{"%char =? 34) with false. change (byte "{"%char =? 91) with false. change (byte "{"%char =? 123) with true. cbv iota. rewrite (skip_blanks w _ Bw). reflexivity.
  - intros s l E IH [|f] e He L; [lia|]. rewrite <- !app_assoc. cbn [B list_ascii_of_string app jval]. rewrite skip_solid by (unfold solid, blank; vm_compute; intros [X|[X|[X|X]]]; discriminate X). change (byte "{"%char =? 34) with false. change (byte "{"%char =? 91) with false. change (byte "{"%char =? 123) with true. cbv iota.
    destruct (members_head s l E) as (c & r & Es & Nc & Ap). rewrite Ap, Es. cbn [app]. destruct (Z.eqb_spec (byte c) 125); [contradiction|]. change ("}"%char :: e) with (B "}" ++ e). rewrite IH; [reflexivity|]. cbn [B list_ascii_of_string app length] in L. rewrite app_length in L. cbn [length] in L. lia.
  - intros a t b v Ba V IH Bb [|f] e L; [lia|]. rewrite <- !app_assoc. rewrite !app_length in L. cbn [jelems]. rewrite <- jval_skip, (skip_blanks a _ Ba), jval_skip.
    assert (Lt : (1 <= length t)%nat) by (destruct (value_head _ _ V) as (c & r & -> & _); cbn [length]; lia).
    rewrite IH; [|apply ends_blanks; [exact Bb|cbn; auto]|lia]. rewrite (skip_blanks b _ Bb). reflexivity.
  - intros a t b v s l Ba V IH Bb E IHs [|f] e L; [lia|]. rewrite <- !app_assoc. rewrite !app_length in L. cbn [jelems]. rewrite <- jval_skip, (skip_blanks a _ Ba), jval_skip.
    rewrite IH; [|apply ends_blanks; [exact Bb|cbn; auto]|cbn [B list_ascii_of_string length] in L; lia]. rewrite (skip_blanks b _ Bb). cbn [B list_ascii_of_string app skip_ws]. change (is_ws ","%char) with false. change (byte ","%char =? 44) with true. cbv iota. change ("]"%char :: e) with (B "]" ++ e). rewrite IHs by (cbn [B list_ascii_of_string length] in L; lia). reflexivity.
  - intros a k n b a' t b' v Ba (kb & -> & Ck) Bb Ba' V IH Bb' [|f] e L; [lia|]. rewrite <- !app_assoc. rewrite !app_length in L. cbn [jmembers]. rewrite (skip_blanks a _ Ba). cbn [app]. rewrite skip_solid by (unfold solid, blank; vm_compute; intros [X|[X|[X|X]]]; discriminate X). change (negb (byte dquote =? 34)) with false. cbv iota.
    rewrite (unquote_complete kb n Ck) by (rewrite !app_length; cbn [length]; lia). rewrite (skip_blanks b _ Bb). cbn [B list_ascii_of_string app]. rewrite skip_solid by (unfold solid, blank; vm_compute; intros [X|[X|[X|X]]]; discriminate X). change (negb (byte ":"%char =? 58)) with false. cbv iota.
    rewrite <- jval_skip, (skip_blanks a' _ Ba'), jval_skip. rewrite IH; [|apply ends_blanks; [exact Bb'|cbn; auto]|cbn [B list_ascii_of_string length] in L; lia]. rewrite (skip_blanks b' _ Bb'). reflexivity.
  - intros a k n b a' t b' v s l Ba (kb & -> & Ck) Bb Ba' V IH Bb' E IHs [|f] e L; [lia|]. rewrite <- !app_assoc. rewrite !app_length in L. cbn [jmembers]. rewrite (skip_blanks a _ Ba). cbn [app]. rewrite skip_solid by (unfold solid, blank; vm_compute; intros [X|[X|[X|X]]]; discriminate X). change (negb (byte dquote =? 34)) with false. cbv iota.
    rewrite (unquote_complete kb n Ck) by (rewrite !app_length; cbn [length]; lia). rewrite (skip_blanks b _ Bb). cbn [B list_ascii_of_string app]. rewrite skip_solid by (unfold solid, blank; vm_compute; intros [X|[X|[X|X]]]; discriminate X). change (negb (byte ":"%char =? 58)) with false. cbv iota.
    rewrite <- jval_skip, (skip_blanks a' _ Ba'), jval_skip. rewrite IH; [|apply ends_blanks; [exact Bb'|cbn; auto]|cbn [B list_ascii_of_string length] in L; lia]. rewrite (skip_blanks b' _ Bb'). cbn [skip_ws]. change (is_ws ","%char) with false. change (byte ","%char =? 44) with true. cbv iota. change ("}"%char :: e) with (B "}" ++ e). rewrite IHs by (cbn [B list_ascii_of_string length] in L; lia). reflexivity.
Qed.
Lemma grammar s v : parse_json s = Some v <-> document s v.
Proof.
  unfold parse_json. split.
  - destruct (jval (2 * length s + 2) s) as [[w r]|] eqn:E; [|discriminate]. destruct (is_empty (skip_ws r)) eqn:R; [|discriminate]. intros [= <-]. destruct (proj1 (sound _) _ _ _ E) as (a & t & -> & Ba & V). exists a, t, r. split; [reflexivity|]. split; [exact Ba|]. split; [exact V|].
    destruct (skip_split r) as (b & Er & Bb). apply ws_none in R. rewrite R, app_nil_r in Er. subst r. exact Bb.
  - intros (a & t & b & -> & Ba & V & Bb). rewrite <- jval_skip, (skip_blanks a _ Ba), jval_skip, (proj1 complete t v V); [rewrite (skip_blanks' b Bb); reflexivity|rewrite <- (app_nil_r b); apply ends_blanks; [exact Bb|exact I]|rewrite !app_length; lia].
Qed.
