(** Proofs about the value types. *)
From Verif Require Import GoBase GoBaseFacts IdModel IdSpec IdProofs TypeModel TypeSpec.
From Coq Require Import Permutation Sorted.
Open Scope Z_scope.

(** ** Signed decimals *)
Lemma parse_int_iff bits s v : 0 < bits -> parse_int bits s = Some v <-> int_text s v /\ - 2 ^ (bits - 1) <= v < 2 ^ (bits - 1).
Proof.
  intros Hb. pose proof (pow_half bits Hb) as [P1 P2].
  assert (ND : forall c r, is_dec (c :: r) -> c <> ascii_of_nat 45 /\ c <> ascii_of_nat 43).
  { intros c r [_ H]. inversion H as [|? ? [H1 H2] _]; subst. split; intros ->; vm_compute in H1; lia. }
  unfold parse_int. destruct s as [|c r].
  { split; [discriminate|]. intros [[[[H _] _]|[(r & H & _)|(r & H & _)]] _]; congruence. }
  destruct (ascii_dec c (ascii_of_nat 45)) as [->|N1].
  - cbn [orb negb andb]. destruct (parse_uint bits r) as [u|] eqn:E.
    + apply parse_uint_iff in E as (E1 & -> & E2); [|lia]. pose proof (dec_val_nonneg _ E1).
      destruct (2 ^ (bits - 1) <? dec_val r) eqn:C; [apply Z.ltb_lt in C|apply Z.ltb_ge in C].
      * split; [discriminate|]. intros [[[H' _]|[(r' & H' & _ & ->)|(r' & H' & _)]] R].
        -- apply ND in H' as [H' _]. congruence.
        -- injection H' as <-. lia.
        -- discriminate.
      * split.
        -- intros H'. injection H' as <-. split; [right; left; exists r; auto|lia].
        -- intros [[[H' _]|[(r' & H' & _ & ->)|(r' & H' & _)]] R].
           ++ apply ND in H' as [H' _]. congruence.
           ++ injection H' as <-. reflexivity.
           ++ discriminate.
    + apply parse_uint_none in E; [|lia]. split; [discriminate|]. intros [[[H' _]|[(r' & H' & D & ->)|(r' & H' & _)]] R].
      * apply ND in H' as [H' _]. congruence.
      * injection H' as <-. exfalso. apply E. split; [exact D|lia].
      * discriminate.
  - cbn [orb negb andb]. destruct (ascii_dec c (ascii_of_nat 43)) as [->|N2].
    + cbn [orb negb andb]. destruct (parse_uint bits r) as [u|] eqn:E.
      * apply parse_uint_iff in E as (E1 & -> & E2); [|lia]. pose proof (dec_val_nonneg _ E1).
        destruct (2 ^ (bits - 1) <=? dec_val r) eqn:C; [apply Z.leb_le in C|apply Z.leb_gt in C].
        -- split; [discriminate|]. intros [[[H' _]|[(r' & H' & _)|(r' & H' & _ & ->)]] R].
           ++ apply ND in H' as [_ H']. congruence.
           ++ discriminate.
           ++ injection H' as <-. lia.
        -- split.
           ++ intros H'. injection H' as <-. split; [right; right; exists r; auto|lia].
           ++ intros [[[H' _]|[(r' & H' & _)|(r' & H' & _ & ->)]] R].
              ** apply ND in H' as [_ H']. congruence.
              ** discriminate.
              ** injection H' as <-. reflexivity.
      * apply parse_uint_none in E; [|lia]. split; [discriminate|]. intros [[[H' _]|[(r' & H' & _)|(r' & H' & D & ->)]] R].
        -- apply ND in H' as [_ H']. congruence.
        -- discriminate.
        -- injection H' as <-. exfalso. apply E. split; [exact D|lia].
    + cbn [orb negb andb]. destruct (parse_uint bits (c :: r)) as [u|] eqn:E.
      * apply parse_uint_iff in E as (E1 & -> & E2); [|lia]. pose proof (dec_val_nonneg _ E1).
        destruct (2 ^ (bits - 1) <=? dec_val (c :: r)) eqn:C; [apply Z.leb_le in C|apply Z.leb_gt in C].
        -- split; [discriminate|]. intros [[[H' ->]|[(r' & H' & _)|(r' & H' & _)]] R]; [lia|congruence|congruence].
        -- split; [intros H'; injection H' as <-; split; [left; auto|lia]|]. intros [[[H' ->]|[(r' & H' & _)|(r' & H' & _)]] R]; [reflexivity|congruence|congruence].
      * apply parse_uint_none in E; [|lia]. split; [discriminate|]. intros [[[H' ->]|[(r' & H' & _)|(r' & H' & _)]] R]; [|congruence|congruence].
        exfalso. apply E. split; [exact H'|lia].
Qed.

Lemma fmt_int_unquoted z : Forall (fun c => c <> dquote) (fmt_int 10 z).
Proof.
  unfold fmt_int. destruct (z <? 0) eqn:E; [apply Z.ltb_lt in E; constructor; [discriminate|]|apply Z.ltb_ge in E]; apply fmt_unquoted; lia.
Qed.
Lemma zero_word_spec s : is_empty s || beqb s (B "0") || beqb s (B "NULL") = true <-> zero_word s.
Proof.
  unfold zero_word. rewrite !orb_true_iff, is_empty_true, !beqb_eq. tauto.
Qed.
(** UnmarshalJSON in general. *)
Lemma num_unjson_spec parse old data : let '(w, ok) := num_unjson parse old data in let s := trim [dquote] data in
  (ok = true <-> zero_word s \/ exists v, parse s = Some v) /\ (ok = false -> w = old) /\
  (zero_word s -> w = 0) /\ (~ zero_word s -> forall v, parse s = Some v -> w = v /\ ok = true).
Proof.
  unfold num_unjson. set (s := trim [dquote] data). destruct (is_empty s || beqb s (B "0") || beqb s (B "NULL")) eqn:E.
  - apply zero_word_spec in E. split; [tauto|split; [discriminate|split; [reflexivity|tauto]]].
  - assert (N : ~ zero_word s) by (intros H; apply zero_word_spec in H; congruence). destruct (parse s) as [f|] eqn:P.
    + split; [split; [intros _; right; exists f; reflexivity|reflexivity]|split; [discriminate|split; [tauto|]]]. intros _ v H. injection H as <-. auto.
    + split; [split; [discriminate|intros [H|[v H]]; [contradiction|discriminate]]|split; [reflexivity|split; [tauto|discriminate]]].
Qed.
Lemma num_roundtrip parse old txt v data : Forall (fun c => c <> dquote) txt -> parse txt = Some v -> (zero_word txt -> v = 0) ->
  data = txt \/ data = [dquote] ++ txt ++ [dquote] -> num_unjson parse old data = (v, true).
Proof.
  intros Hq Hp Hz Hd. assert (T : trim [dquote] data = txt) by (destruct Hd as [->| ->]; [apply trim_none|apply trim_quoted]; exact Hq).
  unfold num_unjson. rewrite T. destruct (_ || _) eqn:E; [apply zero_word_spec in E; rewrite Hz by exact E; reflexivity|rewrite Hp; reflexivity].
Qed.
Lemma fmt_int_zero v : zero_word (fmt_int 10 v) -> v = 0.
Proof.
  unfold zero_word, fmt_int. destruct (v <? 0) eqn:E; [intros [H|[H|H]]; discriminate|]. apply Z.ltb_ge in E.
  destruct (fmt_uint_dec v E) as [[D1 D2] D3]. intros [H|[H|H]]; [congruence|rewrite H in D3; rewrite <- D3; reflexivity|].
  rewrite H in D2. inversion D2 as [|? ? [X Y] _]; subst. vm_compute in Y. lia.
Qed.
Lemma fmt_uint_zero v : 0 <= v -> zero_word (fmt_uint 10 v) -> v = 0.
Proof. intros H Hz. apply fmt_int_zero. unfold fmt_int. destruct (v <? 0) eqn:E; [apply Z.ltb_lt in E; lia|exact Hz]. Qed.

(** ** UUID *)
Lemma hex_upper_range d : 0 <= d < 16 -> is_hex_upper (hex_upper d).
Proof.
  intros H. unfold hex_upper, is_hex_upper. destruct (d <? 10) eqn:E; [apply Z.ltb_lt in E|apply Z.ltb_ge in E]; rewrite nat_ascii_embedding by lia; lia.
Qed.
Lemma hex_upper_inj a b : 0 <= a < 16 -> 0 <= b < 16 -> hex_upper a = hex_upper b -> a = b.
Proof.
  intros Ha Hb H. apply (f_equal nat_of_ascii) in H. unfold hex_upper in H.
  destruct (a <? 10) eqn:Ea, (b <? 10) eqn:Eb; rewrite ?Z.ltb_lt, ?Z.ltb_ge in *; rewrite !nat_ascii_embedding in H by lia; lia.
Qed.
Lemma byte_range c : 0 <= Z.of_nat (nat_of_ascii c) < 256.
Proof. pose proof (nat_ascii_bounded c). lia. Qed.
Lemma hex_byte_inj c d : hex_byte c = hex_byte d -> c = d.
Proof.
  unfold hex_byte. intros H. injection H as H1 H2. pose proof (byte_range c). pose proof (byte_range d).
  apply hex_upper_inj in H1; [|split; [apply Z.div_pos|apply Z.div_lt_upper_bound]; lia..].
  apply hex_upper_inj in H2; [|apply Z.mod_pos_bound; lia..].
  rewrite <- (ascii_nat_embedding c), <- (ascii_nat_embedding d). f_equal.
  rewrite (Z.div_mod (Z.of_nat (nat_of_ascii c)) 16), (Z.div_mod (Z.of_nat (nat_of_ascii d)) 16) in * by lia. 
  pose proof (Z.div_mod (Z.of_nat (nat_of_ascii c)) 16 ltac:(lia)). pose proof (Z.div_mod (Z.of_nat (nat_of_ascii d)) 16 ltac:(lia)). lia.
Qed.
Lemma list16 (b : bytes) : length b = 16%nat -> exists a0 a1 a2 a3 a4 a5 a6 a7 a8 a9 a10 a11 a12 a13 a14 a15,
  b = [a0; a1; a2; a3; a4; a5; a6; a7; a8; a9; a10; a11; a12; a13; a14; a15].
Proof.
  intros H. do 16 (destruct b as [|? b]; [discriminate|]). destruct b; [|discriminate]. repeat eexists.
Qed.
Lemma uuid_shape b : length b = 16%nat ->
  length (uuid_text b) = 36%nat /\
  (forall i, (i < 16)%nat -> firstn 2 (skipn (nth i uuid_pos O) (uuid_text b)) = hex_byte (nth i b zero)) /\
  Forall (fun p => nth p (uuid_text b) zero = ascii_of_nat 45) [8; 13; 18; 23]%nat /\
  Forall (fun c => c = ascii_of_nat 45 \/ is_hex_upper c) (uuid_text b).
Proof.
  intros H. destruct (list16 b H) as (a0 & a1 & a2 & a3 & a4 & a5 & a6 & a7 & a8 & a9 & a10 & a11 & a12 & a13 & a14 & a15 & ->).
  split; [reflexivity|split; [|split; [repeat constructor|]]].
  - intros i Hi. do 16 (destruct i as [|i]; [reflexivity|]). lia.
  - assert (G : forall c, Forall (fun c => c = ascii_of_nat 45 \/ is_hex_upper c) (hex_byte c)).
    { intros c. pose proof (byte_range c). unfold hex_byte. apply Forall_cons; [|apply Forall_cons; [|apply Forall_nil]]; right; apply hex_upper_range;
        [split; [apply Z.div_pos|apply Z.div_lt_upper_bound]; lia|apply Z.mod_pos_bound; lia]. }
    unfold uuid_text, hexat. cbn [flat_map nth]. rewrite !app_nil_r.
    repeat (first [apply Forall_app; split | apply G]); repeat constructor.
Qed.
Lemma uuid_inj b c : length b = 16%nat -> length c = 16%nat -> uuid_text b = uuid_text c -> b = c.
Proof.
  intros Hb Hc E. destruct (uuid_shape b Hb) as (_ & B1 & _). destruct (uuid_shape c Hc) as (_ & C1 & _).
  apply (nth_ext b c zero zero); [congruence|]. intros i Hi. apply hex_byte_inj. rewrite <- B1, <- C1 by lia. rewrite E. reflexivity.
Qed.

(** ** Maps *)
Lemma assoc_put {V} (k j : bytes) (v : V) l : assoc j (put k v l) = if beqb k j then Some v else assoc j l.
Proof.
  induction l as [|[i w] l IH]; cbn [put assoc].
  - destruct (beqb_spec k j); reflexivity.
  - destruct (beqb_spec i k) as [->|N].
    + cbn [assoc]. destruct (beqb k j); reflexivity.
    + cbn [assoc]. rewrite IH. destruct (beqb_spec i j) as [->|]; [|reflexivity]. destruct (beqb_spec k j); [congruence|reflexivity].
Qed.
Lemma put_keys {V} (k : bytes) (v : V) l : map fst (put k v l) = if in_dec bytes_dec k (map fst l) then map fst l else map fst l ++ [k].
Proof.
  induction l as [|[i w] l IH]; [reflexivity|]. cbn [put map fst].
  destruct (beqb_spec i k) as [->|N].
  - cbn [map fst]. destruct (in_dec bytes_dec k (k :: map fst l)) as [|n]; [reflexivity|]. exfalso. apply n. left. reflexivity.
  - cbn [map fst]. rewrite IH. destruct (in_dec bytes_dec k (map fst l)) as [I|I], (in_dec bytes_dec k (i :: map fst l)) as [J|J]; try reflexivity.
    + exfalso. apply J. right. exact I.
    + destruct J as [J|J]; [congruence|contradiction].
Qed.
Lemma put_nodup {V} (k : bytes) (v : V) l : NoDup (map fst l) -> NoDup (map fst (put k v l)).
Proof.
  intros H. rewrite put_keys. destruct (in_dec _ _ _) as [|N]; [exact H|].
  apply NoDup_Add with (a := k) (l := map fst l); [|split; assumption]. rewrite <- (app_nil_r (map fst l)) at 1. apply Add_app.
Qed.
Lemma assoc_in {V} k (v : V) l : assoc k l = Some v -> In (k, v) l.
Proof.
  induction l as [|[i w] l IH]; [discriminate|]. cbn [assoc]. destruct (beqb_spec i k) as [->|N]; [intros H; injection H as ->; left; reflexivity|right; auto].
Qed.
Lemma in_assoc {V} k (v : V) l : NoDup (map fst l) -> In (k, v) l -> assoc k l = Some v.
Proof.
  induction l as [|[i w] l IH]; [intros _ []|]. cbn [map fst assoc]. intros Hn [H|H].
  - injection H as -> ->. rewrite beqb_refl. reflexivity.
  - inversion Hn as [|? ? N1 N2]; subst. destruct (beqb_spec i k) as [->|]; [|apply IH; assumption].
    exfalso. apply N1. change k with (fst (k, v)). apply in_map. exact H.
Qed.
Lemma assoc_none {V} k (l : list (bytes * V)) : assoc k l = None <-> ~ In k (map fst l).
Proof.
  induction l as [|[i w] l IH]; [cbn; tauto|]. cbn [assoc map fst In]. destruct (beqb_spec i k) as [->|N]; [split; [discriminate|tauto]|].
  rewrite IH. tauto.
Qed.
Lemma assoc_perm {V} k (l l' : list (bytes * V)) : NoDup (map fst l) -> Permutation l l' -> assoc k l = assoc k l'.
Proof.
  intros Hn Hp. assert (Hn' : NoDup (map fst l')) by (eapply Permutation_NoDup; [apply Permutation_map, Hp|exact Hn]).
  destruct (assoc k l) as [v|] eqn:E.
  - symmetry. apply in_assoc; [exact Hn'|]. eapply Permutation_in; [exact Hp|]. apply assoc_in, E.
  - symmetry. apply assoc_none. apply assoc_none in E. intros H. apply E. eapply Permutation_in; [apply Permutation_sym, Permutation_map, Hp|exact H].
Qed.
Lemma fold_put_assoc {V} (o : list (bytes * V)) : NoDup (map fst o) -> forall k l,
  assoc k (fold_left (fun acc kv => put (fst kv) (snd kv) acc) o l) = match assoc k o with Some v => Some v | None => assoc k l end.
Proof.
  induction o as [|[i w] o IH]; intros Hn k l; [reflexivity|]. inversion Hn as [|? ? N1 N2]; subst. cbn [fold_left fst snd assoc].
  rewrite IH, assoc_put by assumption. destruct (beqb_spec i k) as [->|]; [|reflexivity].
  apply assoc_none in N1. rewrite N1. reflexivity.
Qed.
Lemma fold_put_nodup {V} (o : list (bytes * V)) : forall l, NoDup (map fst l) ->
  NoDup (map fst (fold_left (fun acc kv => put (fst kv) (snd kv) acc) o l)).
Proof. induction o as [|[i w] o IH]; intros l H; [exact H|]. cbn [fold_left]. apply IH, put_nodup, H. Qed.
Lemma merge_get {V} (n m : gmap V) order k : map_ok m -> Permutation order (entries m) ->
  mget (merge_in n order) k = match mget m k with Some v => Some v | None => mget n k end.
Proof.
  intros Hm Hp. unfold mget, merge_in. cbn [entries].
  assert (Ho : NoDup (map fst order)) by (eapply Permutation_NoDup; [apply Permutation_map, Permutation_sym, Hp|exact Hm]).
  rewrite fold_put_assoc by exact Ho. rewrite (assoc_perm k order (entries m) Ho Hp). reflexivity.
Qed.

(** ** Order of strings *)
Lemma bltb_spec a b : bltb a b = true <-> str_lt a b.
Proof.
  revert b. induction a as [|x a IH]; intros [|y b]; cbn [bltb].
  - split; [discriminate|]. intros [p [(c & r & H & _)|(c & d & r & s & H & _)]]; destruct p; discriminate.
  - split; [|reflexivity]. intros _. exists []. left. exists y, b. split; reflexivity.
  - split; [discriminate|]. intros [p [(c & r & H & _)|(c & d & r & s & _ & H & _)]]; destruct p; discriminate.
  - destruct (nat_of_ascii x <? nat_of_ascii y)%nat eqn:E1; [apply Nat.ltb_lt in E1|apply Nat.ltb_ge in E1].
    + split; [|reflexivity]. intros _. exists []. right. exists x, y, a, b. auto.
    + destruct (nat_of_ascii y <? nat_of_ascii x)%nat eqn:E2; [apply Nat.ltb_lt in E2|apply Nat.ltb_ge in E2].
      * split; [discriminate|]. intros [p [(c & r & H1 & H2)|(c & d & r & s & H1 & H2 & H3)]].
        -- destruct p as [|z p]; [discriminate|]. cbn in H1. injection H1 as -> _. injection H2 as -> _. lia.
        -- destruct p as [|z p]; cbn in H1, H2; injection H1 as -> _; injection H2 as -> _; lia.
      * assert (x = y). { rewrite <- (ascii_nat_embedding x), <- (ascii_nat_embedding y). f_equal. lia. } subst y. rewrite IH. split.
        -- intros [p H]. exists (x :: p). destruct H as [(c & r & -> & ->)|(c & d & r & s & -> & -> & H)]; [left; exists c, r; auto|right; exists c, d, r, s; auto].
        -- intros [p [(c & r & H1 & H2)|(c & d & r & s & H1 & H2 & H3)]].
           ++ destruct p as [|z p]; [discriminate|]. cbn in H1. injection H1 as -> ->. injection H2 as ->. exists p. left. exists c, r. auto.
           ++ destruct p as [|z p]; cbn in H1, H2; injection H1; injection H2; intros; subst; [lia|]. exists p. right. exists c, d, r, s. auto.
Qed.
Lemma bltb_irrefl a : bltb a a = false.
Proof. induction a as [|x a IH]; [reflexivity|]. cbn [bltb]. rewrite Nat.ltb_irrefl. exact IH. Qed.
Lemma bltb_trans a : forall b c, bltb a b = true -> bltb b c = true -> bltb a c = true.
Proof.
  induction a as [|x a IH]; intros [|y b] [|z c]; cbn [bltb]; try congruence.
  destruct (nat_of_ascii x <? nat_of_ascii y)%nat eqn:E1, (nat_of_ascii y <? nat_of_ascii z)%nat eqn:E2,
    (nat_of_ascii x <? nat_of_ascii z)%nat eqn:E3; try reflexivity;
  destruct (nat_of_ascii y <? nat_of_ascii x)%nat eqn:E4, (nat_of_ascii z <? nat_of_ascii y)%nat eqn:E5,
    (nat_of_ascii z <? nat_of_ascii x)%nat eqn:E6;
  rewrite ?Nat.ltb_lt, ?Nat.ltb_ge in *; try lia; try congruence; apply IH.
Qed.
Lemma bltb_total a : forall b, bltb a b = true \/ a = b \/ bltb b a = true.
Proof.
  induction a as [|x a IH]; intros [|y b]; cbn [bltb]; auto.
  destruct (nat_of_ascii x <? nat_of_ascii y)%nat eqn:E1; [auto|]. destruct (nat_of_ascii y <? nat_of_ascii x)%nat eqn:E2; [auto|].
  rewrite ?Nat.ltb_lt, ?Nat.ltb_ge in *. assert (x = y). { rewrite <- (ascii_nat_embedding x), <- (ascii_nat_embedding y). f_equal. lia. } subst y.
  destruct (IH b) as [H|[->|H]]; auto.
Qed.
Lemma insert_key_perm k l : Permutation (k :: l) (insert_key k l).
Proof. induction l as [|j l IH]; [reflexivity|]. cbn. destruct (bltb j k); [|reflexivity]. rewrite perm_swap. constructor. exact IH. Qed.
Lemma ordered_keys_perm {V} (m : gmap V) : Permutation (map fst (entries m)) (ordered_keys m).
Proof.
  unfold ordered_keys. induction (map fst (entries m)) as [|k l IH]; [reflexivity|]. cbn. rewrite <- insert_key_perm. constructor. exact IH.
Qed.
Lemma insert_key_sorted k l : ~ In k l -> StronglySorted str_lt l -> StronglySorted str_lt (insert_key k l).
Proof.
  induction l as [|j l IH]; intros Hn Hs; [repeat constructor|]. cbn. inversion Hs as [|? ? S1 S2]; subst. destruct (bltb j k) eqn:E.
  - constructor; [apply IH; [intros H; apply Hn; right; exact H|exact S1]|].
    apply Forall_forall. intros z Hz. assert (Hz' : In z (k :: l)) by (eapply Permutation_in; [apply Permutation_sym, insert_key_perm|exact Hz]).
    destruct Hz' as [<-|Hz']; [apply bltb_spec, E|exact (proj1 (Forall_forall _ _) S2 z Hz')].
  - assert (K : bltb k j = true). { destruct (bltb_total k j) as [H|[->|H]]; [exact H|exfalso; apply Hn; left; reflexivity|congruence]. }
    constructor; [exact Hs|]. constructor; [apply bltb_spec, K|]. eapply Forall_impl; [|exact S2]. intros z Hz. apply bltb_spec in Hz. apply bltb_spec. exact (bltb_trans k j z K Hz).
Qed.
Lemma ordered_keys_sorted {V} (m : gmap V) : map_ok m -> StronglySorted str_lt (ordered_keys m).
Proof.
  unfold map_ok, ordered_keys. induction (map fst (entries m)) as [|k l IH]; intros H; [constructor|]. inversion H as [|? ? N1 N2]; subst. cbn.
  apply insert_key_sorted; [|apply IH; exact N2]. intros X. apply N1.
  assert (P : Permutation l (fold_right insert_key [] l)). { clear. induction l as [|j l IH]; [reflexivity|]. cbn. rewrite <- insert_key_perm. constructor. exact IH. }
  eapply Permutation_in; [apply Permutation_sym, P|exact X].
Qed.
(** Pairs determine the map. *)
Lemma pairs_inj (f g : bytes -> bytes) : forall l l', flat_map (fun k => [k; f k]) l = flat_map (fun k => [k; g k]) l' -> l = l' /\ forall k, In k l -> f k = g k.
Proof.
  induction l as [|k l IH]; intros [|k' l']; cbn; try discriminate; [auto with datatypes; intros; split; [reflexivity|intros k []]|].
  intros H. injection H as -> H1 H2. destruct (IH l' H2) as [-> H3]. split; [reflexivity|]. intros j [<-|Hj]; [exact H1|apply H3, Hj].
Qed.
Lemma mget_keys {V} (m : gmap V) k : In k (ordered_keys m) <-> exists v, mget m k = Some v.
Proof.
  unfold mget. split.
  - intros H. destruct (assoc k (entries m)) as [v|] eqn:E; [exists v; reflexivity|]. apply assoc_none in E. exfalso. apply E.
    eapply Permutation_in; [apply Permutation_sym, ordered_keys_perm|exact H].
  - intros [v H]. eapply Permutation_in; [apply ordered_keys_perm|]. apply assoc_in in H. change k with (fst (k, v)). apply in_map. exact H.
Qed.

(** ** Errors *)
Lemma chain_self e : In e (chain e). Proof. destruct e; left; reflexivity. Qed.
Lemma check_keeps e t i : is_not_found (check_not_found e t i) = is_not_found e.
Proof.
  destruct e as [x|]; [|reflexivity]. unfold check_not_found. destruct (is_no_rows x || contains no_rows_text (err_text x)) eqn:E.
  - change (is_no_rows x || true || contains no_rows_text (B "record not found: " ++ t ++ B ": " ++ i) = is_no_rows x || as_not_found x || contains no_rows_text (err_text x)).
    rewrite orb_true_r. symmetry. cbn [orb]. apply orb_true_iff in E as [E|E]; rewrite E; [reflexivity|apply orb_true_r].
  - reflexivity.
Qed.
Lemma check_reaches x t i : exists r, check_not_found (Some x) t i = Some r /\ In x (chain r).
Proof.
  unfold check_not_found. destruct (_ || _); eexists; (split; [reflexivity|]); cbn; auto using chain_self.
Qed.
Lemma beqb2 t i t' i' : beqb t t' && beqb i i' = true <-> t = t' /\ i = i'.
Proof. rewrite andb_true_iff, !beqb_eq. reflexivity. Qed.

(** ** Merge *)
Lemma merge_field_zero d s : field_zero s -> merge_field d s = d.
Proof.
  destruct s as [t|v|s|z]; cbn; intros H.
  - subst t. reflexivity.
  - unfold id_valid. rewrite H. reflexivity.
  - subst s. reflexivity.
  - subst z. reflexivity.
Qed.
Lemma merge_field_nonzero d s : ~ field_zero s -> merge_field d s = s.
Proof.
  destruct s as [t|v|s|z]; cbn; intros H.
  - destruct (t =? 0) eqn:E; [apply Z.eqb_eq in E; contradiction|reflexivity].
  - unfold id_valid. destruct (id_val v =? 0) eqn:E; [apply Z.eqb_eq in E; contradiction|reflexivity].
  - destruct s; [congruence|reflexivity].
  - destruct (z =? 0) eqn:E; [apply Z.eqb_eq in E; contradiction|reflexivity].
Qed.
Lemma field_zero_dec f : {field_zero f} + {~ field_zero f}.
Proof. destruct f as [t|v|s|z]; cbn; [apply Z.eq_dec|apply Z.eq_dec|apply bytes_dec|apply Z.eq_dec]. Qed.
Lemma merge_nth : forall d s i x, length d = length s -> nth_error s i = Some x ->
  exists y, nth_error d i = Some y /\ nth_error (merge_struct d s) i = Some (if field_zero_dec x then y else x).
Proof.
  induction d as [|a d IH]; intros [|b s] i x HL HN; cbn in HL; try discriminate; [destruct i; discriminate|].
  destruct i as [|i]; cbn in *.
  - injection HN as ->. exists a. split; [reflexivity|]. destruct (field_zero_dec x) as [Z|Z]; [rewrite merge_field_zero|rewrite merge_field_nonzero]; auto.
  - apply IH; [congruence|exact HN].
Qed.
Lemma merge_length : forall d s, length (merge_struct d s) = length d.
Proof. induction d as [|a d IH]; intros [|b s]; cbn; congruence || auto. Qed.
Lemma merge_idem : forall d s, merge_struct (merge_struct d s) s = merge_struct d s.
Proof.
  induction d as [|a d IH]; intros [|b s]; cbn; try reflexivity. rewrite IH. f_equal.
  destruct (field_zero_dec b) as [Z|Z]; [rewrite !(merge_field_zero _ b Z)|rewrite !(merge_field_nonzero _ b Z)]; reflexivity.
Qed.
