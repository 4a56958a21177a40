(** The types of generated fields. *)
From Verif Require Import GoBase GoBaseFacts IdModel TypeModel TimeModel ParamModel SchemaModel SchemaProofs GenModel GenSpec.
Open Scope Z_scope.

Lemma lower_is c d : d = ch 105 \/ d = ch 100 -> lower_ascii c = d -> c = d \/ (d = ch 105 /\ c = ch 73) \/ (d = ch 100 /\ c = ch 68).
Proof. destruct c as [[][][][][][][][]]; intros [-> | ->] E; vm_compute in E; try discriminate; vm_compute; auto. Qed.
Lemma fold_id n : equal_fold n (B "id") = true <-> exists a b, n = [a; b] /\ (a = ch 105 \/ a = ch 73) /\ (b = ch 100 \/ b = ch 68).
Proof.
  unfold equal_fold. rewrite beqb_eq. split.
  - destruct n as [|a [|b [|]]]; try discriminate. intro E. change (map lower_ascii (B "id")) with [ch 105; ch 100] in E. cbn [map] in E. injection E as E1 E2.
    exists a, b. split; [reflexivity|]. apply lower_is in E1; [|auto]. apply lower_is in E2; [|auto].
    split; [destruct E1 as [E1|[[? E1]|[E1' _]]] | destruct E2 as [E2|[[E2' _]|[? E2]]]]; auto; discriminate.
  - intros (a & b & -> & [-> | ->] & [-> | ->]); reflexivity.
Qed.
Lemma is_id_iff c : is_id c = true <-> id_column (c_name c).
Proof. unfold is_id, id_column. rewrite !Bool.orb_true_iff, fold_id, !has_suffix_spec. tauto. Qed.

(** The table agrees with the families. *)
Definition all_types : list bytes := flat_map snd families.
Lemma family_in typ f : has_family typ f -> exists l, In (f, l) families /\ In typ l. Proof. exact (fun H => H). Qed.
Lemma first_type_ok typ f (id null : bool) : has_family typ f -> first_type null (if id then [B "id " ++ typ; typ] else [typ]) = Some (go_type id null f).
Proof.
  intros (l & Hf & Hl). unfold families in Hf.
  repeat (destruct Hf as [Hf|Hf]; [injection Hf as <- <-; repeat (destruct Hl as [<-|Hl]; [destruct id, null; vm_compute; reflexivity|]); destruct Hl |]). destruct Hf.
Qed.

Definition strip (s : bytes) : bytes := if has_suffix (B " NULL") s then firstn (length s - 5) s else s.
Definition keys_fine : bool :=
  forallb (fun k => let p := strip (fst k) in let q := if has_prefix (B "id ") p then skipn 3 p else p in
                    existsb (beqb q) all_types || existsb (Ascii.eqb (ch 32)) q) type_by_column.
Lemma no_space_at s : ~ In (ch 32) s -> existsb (Ascii.eqb (ch 32)) s = false.
Proof. intro H. apply Bool.not_true_is_false. intro E. apply existsb_exists in E as (x & Hx & E). apply Ascii.eqb_eq in E as <-. exact (H Hx). Qed.
Lemma all_types_family typ : In typ all_types -> exists f, has_family typ f.
Proof. intro H. apply in_flat_map in H as ([f l] & Hf & Hl). exists f, l. split; assumption. Qed.
Lemma known_key k v : mget k type_by_column = Some v -> let p := strip k in let q := if has_prefix (B "id ") p then skipn 3 p else p in
  In q all_types \/ In (ch 32) q.
Proof.
  intro H. apply mget_in in H. assert (K : keys_fine = true) by (vm_compute; reflexivity). unfold keys_fine in K. rewrite forallb_forall in K.
  specialize (K _ H). cbn [fst] in K. cbv zeta in K |- *. apply Bool.orb_true_iff in K as [K|K]; apply existsb_exists in K as (x & Hx & E).
  - left. apply beqb_eq in E. rewrite E. exact Hx.
  - right. apply Ascii.eqb_eq in E. rewrite E. exact Hx.
Qed.
Lemma strip_null typ : strip (typ ++ B " NULL") = typ.
Proof.
  unfold strip. assert (E : has_suffix (B " NULL") (typ ++ B " NULL") = true) by (apply has_suffix_spec; exists typ; reflexivity). rewrite E.
  rewrite app_length. replace (length typ + length (B " NULL") - 5)%nat with (length typ) by (cbn [length B list_ascii_of_string]; lia).
  rewrite firstn_app, Nat.sub_diag, firstn_all, firstn_O. apply app_nil_r.
Qed.
Lemma strip_plain s : ~ In (ch 32) s -> strip s = s.
Proof.
  intro H. unfold strip. destruct (has_suffix (B " NULL") s) eqn:E; [|reflexivity]. exfalso. apply has_suffix_spec in E as [r ->]. apply H.
  apply in_or_app. right. left. reflexivity.
Qed.
Lemma strip_id s : ~ In (ch 32) s -> s <> B "NULL" -> strip (B "id " ++ s) = B "id " ++ s.
Proof.
  intros H HN. unfold strip. destruct (has_suffix (B " NULL") (B "id " ++ s)) eqn:E; [|reflexivity]. exfalso. apply has_suffix_spec in E as [r E].
  assert (T : B " NULL" = [ch 32; ch 78; ch 85; ch 76; ch 76]) by reflexivity. change (B "id ") with [ch 105; ch 100; ch 32] in E. rewrite T in E.
  destruct r as [|x [|y [|z r]]]; cbn [app] in E; try discriminate; injection E; intros; subst.
  - apply HN. reflexivity.
  - apply H. apply in_or_app. right. left. reflexivity.
Qed.
Lemma no_id_prefix s : ~ In (ch 32) s -> has_prefix (B "id ") s = false.
Proof. intro H. apply Bool.not_true_is_false. intro E. apply has_prefix_spec in E as [r ->]. apply H. right. right. left. reflexivity. Qed.
Lemma first_type_none typ (id null : bool) : ~ In (ch 32) typ -> (forall f, ~ has_family typ f) -> first_type null (if id then [B "id " ++ typ; typ] else [typ]) = None.
Proof.
  intros Hs Hf.
  assert (Q : forall k v, mget k type_by_column = Some v -> (let p := strip k in (if has_prefix (B "id ") p then skipn 3 p else p) = typ) -> False).
  { intros k v E Ek. apply known_key in E. cbv zeta in E, Ek. rewrite Ek in E. destruct E as [E|E]; [|exact (Hs E)]. apply all_types_family in E as [f E]. exact (Hf f E). }
  assert (A : mget (typ ++ B " NULL") type_by_column = None).
  { destruct (mget (typ ++ B " NULL") type_by_column) eqn:E; [|reflexivity]. exfalso. apply (Q _ _ E). rewrite strip_null. cbv zeta. rewrite no_id_prefix by exact Hs. reflexivity. }
  assert (A2 : mget typ type_by_column = None).
  { destruct (mget typ _) eqn:E; [|reflexivity]. exfalso. apply (Q _ _ E). rewrite strip_plain by exact Hs. cbv zeta. rewrite no_id_prefix by exact Hs. reflexivity. }
  assert (A3 : mget ((B "id " ++ typ) ++ B " NULL") type_by_column = None).
  { destruct (mget ((B "id " ++ typ) ++ B " NULL") type_by_column) eqn:E; [|reflexivity]. exfalso. apply (Q _ _ E). rewrite strip_null. reflexivity. }
  assert (A4 : mget (B "id " ++ typ) type_by_column = None).
  { destruct (beqb_spec typ (B "NULL")) as [->|HN]; [vm_compute; reflexivity|]. destruct (mget (B "id " ++ typ) type_by_column) eqn:E; [|reflexivity]. exfalso. apply (Q _ _ E). rewrite strip_id by assumption. reflexivity. }
  destruct id, null; cbn [first_type]; rewrite ?A, ?A2, ?A3, ?A4; reflexivity.
Qed.

Lemma coalesce_type c : strings_coalesce (c_udt c) (c_type c) = type_of c.
Proof. unfold strings_coalesce, type_of. destruct (c_udt c); reflexivity. Qed.
Lemma to_go_plain types c : no_override types c -> c_type c <> B "ARRAY" ->
  to_go_type types c = match first_type (c_null c) (if is_id c then [B "id " ++ type_of c; type_of c] else [type_of c]) with Some r => ROk r | None => RPanic end.
Proof.
  intros (H1 & H2 & H3) HA. unfold to_go_type. rewrite H1, H2, H3. replace (if beqb (c_udt c) (B "int4") && negb (c_null c) && has_suffix (B "_count") (c_name c) then None else None) with (@None bytes) by (destruct (_ && _ && _); reflexivity).
  apply beqb_neq in HA. rewrite HA. cbv zeta. rewrite coalesce_type. reflexivity.
Qed.
Lemma null_ok_family f id : null_ok (go_type id true f).
Proof. destruct f, id; cbn [go_type]; constructor; reflexivity. Qed.
