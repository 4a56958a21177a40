(** Proofs on the printing commands. *)
From Verif Require Import GoBase GoBaseFacts IdModel TypeModel ParamModel SchemaModel JsonModel JsonSpec JsonProofs CliModel CliSpec.
Open Scope Z_scope.

(** ** Indented JSON is read back *)
Lemma skip_nl d s : skip_ws (nl d ++ s) = skip_ws s.
Proof.
  unfold nl. cbn [app skip_ws]. change (is_ws (ch 10)) with true. cbv iota. induction d as [|d IH]; [reflexivity|].
  cbn [repeat concat]. rewrite <- app_assoc. change (B "  ") with [ch 32; ch 32]. cbn [app skip_ws]. change (is_ws (ch 32)) with true. exact IH.
Qed.
Lemma jval_nl f d s : jval f (nl d ++ s) = jval f s.
Proof. destruct f; [reflexivity|]. cbn [jval]. rewrite skip_nl. reflexivity. Qed.
Lemma jelems_nl f d s : jelems f (nl d ++ s) = jelems f s.
Proof. destruct f; [reflexivity|]. cbn [jelems]. rewrite jval_nl. reflexivity. Qed.
Lemma jmembers_nl f d s : jmembers f (nl d ++ s) = jmembers f s.
Proof. destruct f; [reflexivity|]. cbn [jmembers]. rewrite skip_nl. reflexivity. Qed.
Definition member_indent (d : nat) (kv : bytes * json) : bytes := enc_string (fst kv) ++ B ": " ++ indent d (snd kv).
Lemma indent_head d v : json_ok v -> exists c r, indent d v = c :: r /\ is_ws c = false /\ byte c <> 93 /\ byte c <> 125.
Proof.
  intros H. destruct H as [|b|t H|s|l _|l _]; cbn [indent json_text].
  - eexists _, _. split; [reflexivity|]. repeat split; discriminate.
  - destruct b; eexists _, _; (split; [reflexivity|]); repeat split; discriminate.
  - destruct t as [|c r]; [discriminate H|]. exists c, r. split; [reflexivity|]. apply scan_num_head in H. unfold is_ws. cbv zeta.
    destruct (Z.eqb_spec (byte c) 32); [lia|]. destruct (Z.eqb_spec (byte c) 9); [lia|]. destruct (Z.eqb_spec (byte c) 10); [lia|]. destruct (Z.eqb_spec (byte c) 13); [lia|]. repeat split; lia.
  - eexists _, _. split; [reflexivity|]. repeat split; discriminate.
  - destruct l; eexists _, _; (split; [reflexivity|]); repeat split; discriminate.
  - destruct l; eexists _, _; (split; [reflexivity|]); repeat split; discriminate.
Qed.
Lemma indent_length d v : json_ok v -> (1 <= length (indent d v))%nat.
Proof. intros H. destruct (indent_head d v H) as (c & r & -> & _). cbn. lia. Qed.
Lemma nl_length d : (1 <= length (nl d))%nat.
Proof. unfold nl. cbn. lia. Qed.
Lemma nl_num_end d s : num_end (nl d ++ s).
Proof. unfold nl. cbn [app num_end]. change (byte (ch 10)) with 10. lia. Qed.
Definition jind_ok (v : json) : Prop := json_ok v -> forall d f rest, num_end rest -> (length (indent d v) <= f)%nat -> jval f (indent d v ++ rest) = Some (json_repaired v, rest).
Lemma jelems_indent l : Forall jind_ok l -> Forall json_ok l -> l <> [] -> forall d e f rest, (length (join (B "," ++ nl d) (map (indent d) l)) < f)%nat ->
  jelems f (join (B "," ++ nl d) (map (indent d) l) ++ nl e ++ B "]" ++ rest) = Some (map json_repaired l, rest).
Proof.
  induction 1 as [|v l Hv _ IH]; intros O N d e f rest L; [congruence|]. inversion O as [|? ? Ov Ol]; subst. clear N. destruct f as [|f]; [lia|]. cbn [jelems].
  destruct l as [|w l].
  - cbn [map join] in *. rewrite (Hv Ov d f) by (apply nl_num_end || lia). rewrite skip_nl. reflexivity.
  - assert (Nn : w :: l <> []) by discriminate. revert IH Ol L. generalize (w :: l) Nn. clear w l Nn O. intros l N IH Ol L.
    assert (J : join (B "," ++ nl d) (map (indent d) (v :: l)) = indent d v ++ (B "," ++ nl d) ++ join (B "," ++ nl d) (map (indent d) l)) by (cbn [map]; apply join_cons; destruct l; [congruence|discriminate]).
    rewrite J in *. rewrite !app_length in L. cbn [length] in L. change (length (B ",")) with 1%nat in L. pose proof (indent_length d v Ov) as Lv.
    rewrite <- !app_assoc. rewrite (Hv Ov d f) by (cbn; auto || lia).
    change (skip_ws (B "," ++ nl d ++ join (B "," ++ nl d) (map (indent d) l) ++ nl e ++ B "]" ++ rest)) with (B "," ++ nl d ++ join (B "," ++ nl d) (map (indent d) l) ++ nl e ++ B "]" ++ rest).
    change (B "," ++ nl d ++ join (B "," ++ nl d) (map (indent d) l) ++ nl e ++ B "]" ++ rest) with (","%char :: nl d ++ join (B "," ++ nl d) (map (indent d) l) ++ nl e ++ B "]" ++ rest). cbv iota.
    change (byte "," =? 44) with true. cbv iota. rewrite jelems_nl.
    rewrite (IH Ol N d e f rest ltac:(lia)). reflexivity.
Qed.
Lemma jmembers_indent l : Forall (fun kv => jind_ok (snd kv)) l -> Forall (fun kv => json_ok (snd kv)) l -> l <> [] -> forall d e f rest, (length (join (B "," ++ nl d) (map (member_indent d) l)) < f)%nat ->
  jmembers f (join (B "," ++ nl d) (map (member_indent d) l) ++ nl e ++ B "}" ++ rest) = Some (map (fun kv => (repaired (fst kv), json_repaired (snd kv))) l, rest).
Proof.
  assert (M : forall k v d t f, jind_ok v -> json_ok v -> num_end t -> (length (indent d v) <= f)%nat ->
    jmembers (S f) (member_indent d (k, v) ++ t) = match skip_ws t with
      | c :: r3 => if byte c =? 44 then match jmembers f r3 with Some (l, r4) => Some ((repaired k, json_repaired v) :: l, r4) | None => None end
                   else if byte c =? 125 then Some ([(repaired k, json_repaired v)], r3) else None
      | [] => None end).
  { intros k v d t f Hv Ov Ht L. unfold member_indent. cbn [fst snd]. unfold enc_string. rewrite <- !app_assoc. cbn [app]. cbn [jmembers].
    change (skip_ws (dquote :: enc_chars k ++ dquote :: B ": " ++ indent d v ++ t)) with (dquote :: enc_chars k ++ dquote :: B ": " ++ indent d v ++ t). cbv iota.
    change (negb (byte dquote =? 34)) with false. cbv iota. rewrite (unquote_string k (B ": " ++ indent d v ++ t)). cbv iota beta.
    change (skip_ws (B ": " ++ indent d v ++ t)) with (":"%char :: " "%char :: indent d v ++ t). cbv iota. change (negb (byte ":" =? 58)) with false. cbv iota.
    assert (SP : forall s, jval f (" "%char :: s) = jval f s) by (intros s; destruct f; reflexivity). rewrite SP. rewrite (Hv Ov d f t Ht L). reflexivity. }
  induction 1 as [|[k v] l Hv _ IH]; intros O N d e f rest L; [congruence|]. inversion O as [|? ? Ov Ol]; subst. clear N. cbn [snd] in *. destruct f as [|f]; [lia|].
  assert (LM : (length (indent d v) + 2 <= length (member_indent d (k, v)))%nat). { unfold member_indent, enc_string. rewrite !app_length. cbn. lia. }
  destruct l as [|w l].
  - cbn [map join] in *. rewrite M; [rewrite skip_nl; reflexivity|exact Hv|exact Ov|apply nl_num_end|lia].
  - assert (Nn : w :: l <> []) by discriminate. revert IH Ol L. generalize (w :: l) Nn. clear w l Nn O. intros l N IH Ol L.
    assert (J : join (B "," ++ nl d) (map (member_indent d) ((k, v) :: l)) = member_indent d (k, v) ++ (B "," ++ nl d) ++ join (B "," ++ nl d) (map (member_indent d) l)) by (cbn [map]; apply join_cons; destruct l; [congruence|discriminate]).
    rewrite J in *. rewrite !app_length in L. change (length (B ",")) with 1%nat in L.
    rewrite <- !app_assoc. rewrite M; [|exact Hv|exact Ov|cbn; auto|lia].
    change (skip_ws (B "," ++ nl d ++ join (B "," ++ nl d) (map (member_indent d) l) ++ nl e ++ B "}" ++ rest)) with (","%char :: nl d ++ join (B "," ++ nl d) (map (member_indent d) l) ++ nl e ++ B "}" ++ rest).
    cbv iota. change (byte "," =? 44) with true. cbv iota. rewrite jmembers_nl.
    rewrite (IH Ol N d e f rest ltac:(lia)). reflexivity.
Qed.
Lemma indent_arr d v l : indent d (JArr (v :: l)) = B "[" ++ nl (S d) ++ join (B "," ++ nl (S d)) (map (indent (S d)) (v :: l)) ++ nl d ++ B "]".
Proof. reflexivity. Qed.
Lemma indent_obj d v l : indent d (JObj (v :: l)) = B "{" ++ nl (S d) ++ join (B "," ++ nl (S d)) (map (member_indent (S d)) (v :: l)) ++ nl d ++ B "}".
Proof. reflexivity. Qed.
Lemma jind v : jind_ok v.
Proof.
  induction v as [|b|t|s|l IH|l IH] using json_rect'; intros O d f rest C L; (destruct f as [|f]; [pose proof (indent_length d _ O); lia|]).
  - reflexivity.
  - destruct b; reflexivity.
  - inversion O as [| |? H| | |]; subst. cbn [indent json_text json_repaired] in *. cbn [jval]. pose proof (text_skip _ rest O) as W. cbn [json_text] in W. rewrite W.
    destruct t as [|c r]; [discriminate H|]. pose proof (scan_num_head _ _ _ _ H) as Hh. cbn [app].
    destruct (Z.eqb_spec (byte c) 34); [lia|]. destruct (Z.eqb_spec (byte c) 91); [lia|]. destruct (Z.eqb_spec (byte c) 123); [lia|].
    assert (P : forall x p, (57 <? byte x) = true -> has_prefix (x :: p) (c :: r ++ rest) = false) by (intros x p X; apply Z.ltb_lt in X; apply prefix_head; lia).
    unfold B. cbn [list_ascii_of_string]. rewrite !P by reflexivity. change (c :: r ++ rest) with ((c :: r) ++ rest). rewrite (scan_num_app _ _ _ _ C H). reflexivity.
  - cbn [indent json_text json_repaired]. unfold enc_string. rewrite <- !app_assoc. cbn [app]. cbn [jval]. change (skip_ws (dquote :: enc_chars s ++ dquote :: rest)) with (dquote :: enc_chars s ++ dquote :: rest). cbv iota.
    change (byte dquote =? 34) with true. cbv iota. rewrite unquote_string. reflexivity.
  - inversion O as [| | | |? Ol|]; subst. cbn [json_repaired] in *. destruct l as [|v l]; [reflexivity|].
    rewrite indent_arr in *. assert (N : v :: l <> []) by discriminate.
    assert (HW : exists c r, join (B "," ++ nl (S d)) (map (indent (S d)) (v :: l)) = c :: r /\ is_ws c = false /\ byte c <> 93).
    { inversion Ol as [|? ? Ov _]; subst. destruct (indent_head (S d) v Ov) as (c & r & E & W & X & _). destruct l as [|w l].
      - exists c, r. cbn [map join]. auto.
      - exists c, (r ++ (B "," ++ nl (S d)) ++ join (B "," ++ nl (S d)) (map (indent (S d)) (w :: l))). split; [|auto]. cbn [map]. rewrite join_cons by discriminate. rewrite E. reflexivity. }
    revert N HW IH Ol L. clear O. generalize (v :: l). clear v l. intros l N (c & r & E & W & X) IH Ol L.
    pose proof (jelems_indent l IH Ol N (S d) d f rest) as J. rewrite !app_length in L. change (length (B "[")) with 1%nat in L. change (length (B "]")) with 1%nat in L. specialize (J ltac:(lia)).
    rewrite <- !app_assoc. rewrite E in *. change (B "[" ++ ?s) with ("["%char :: s). cbn [jval]. change (skip_ws ("["%char :: ?s)) with ("["%char :: s). cbv iota.
    change (byte "[" =? 34) with false. change (byte "[" =? 91) with true. cbv iota. rewrite skip_nl, jelems_nl, J. cbn [app skip_ws]. rewrite W.
    destruct (Z.eqb_spec (byte c) 93); [congruence|]. reflexivity.
  - inversion O as [| | | | |? Ol]; subst. cbn [json_repaired] in *. destruct l as [|v l]; [reflexivity|].
    rewrite indent_obj in *. assert (N : v :: l <> []) by discriminate.
    assert (HW : exists r, join (B "," ++ nl (S d)) (map (member_indent (S d)) (v :: l)) = dquote :: r).
    { destruct l as [|w l]; [eexists; reflexivity|]. cbn [map]. rewrite join_cons by discriminate. eexists. reflexivity. }
    revert N HW IH Ol L. clear O. generalize (v :: l). clear v l. intros l N (r & E) IH Ol L.
    pose proof (jmembers_indent l IH Ol N (S d) d f rest) as J. rewrite !app_length in L. change (length (B "{")) with 1%nat in L. change (length (B "}")) with 1%nat in L. specialize (J ltac:(lia)).
    rewrite <- !app_assoc. rewrite E in *. change (B "{" ++ ?s) with ("{"%char :: s). cbn [jval]. change (skip_ws ("{"%char :: ?s)) with ("{"%char :: s). cbv iota.
    change (byte "{" =? 34) with false. change (byte "{" =? 91) with false. change (byte "{" =? 123) with true. cbv iota. rewrite skip_nl, jmembers_nl, J. cbn [app]. change (skip_ws (dquote :: ?s)) with (dquote :: s). cbv iota.
    change (byte dquote =? 125) with false. reflexivity.
Qed.
(** json.MarshalIndent, a line end, then the parser. *)
Lemma parse_indent v : json_ok v -> parse_json (indent 0 v ++ [ch 10]) = Some (json_repaired v).
Proof.
  intros O. unfold parse_json. rewrite (jind v O 0%nat); [reflexivity|do 4 right; left; reflexivity|rewrite app_length; lia].
Qed.
(** Two documents are not a document. *)
Lemma parse_two v w : json_ok v -> json_ok w -> parse_json ((indent 0 v ++ [ch 10]) ++ indent 0 w ++ [ch 10]) = None.
Proof.
  intros O W. unfold parse_json. rewrite <- !app_assoc. rewrite (jind v O 0%nat); [|do 4 right; left; reflexivity|rewrite !app_length; lia].
  destruct (indent_head 0 w W) as (c & r & -> & X & _). cbn [app skip_ws]. change (is_ws (ch 10)) with true. cbv iota. rewrite X. reflexivity.
Qed.

(** ** Documents *)
Lemma slice_doc_ok {A} (f : A -> json) l : (forall x, json_ok (f x)) -> json_ok (slice_doc f l).
Proof. intros H. destruct l as [l|]; constructor. induction l; constructor; auto. Qed.
Lemma num_ok n : json_ok (num n).
Proof. constructor. apply scan_num_int. Qed.
Lemma index_doc_ok i : json_ok (index_doc i).
Proof. constructor. repeat constructor. cbn [snd]. apply slice_doc_ok. intros x. constructor. Qed.
Lemma column_doc_ok c : json_ok (column_doc c).
Proof. constructor. repeat constructor; apply scan_num_int. Qed.
Lemma table_doc_ok t : json_ok (table_doc t).
Proof.
  constructor. repeat (constructor; try (cbn [snd]; constructor)); cbn [snd].
  - apply slice_doc_ok, column_doc_ok.
  - apply slice_doc_ok, index_doc_ok.
  - destruct (pt_pk t); [apply column_doc_ok|constructor].
Qed.
Lemma fk_doc_ok k : json_ok (fk_doc k).
Proof. constructor. repeat constructor. Qed.
Definition no_other (v : pval) : Prop := match v with VOther j => json_ok j | _ => True end.
Lemma doc_ok v : no_other v -> json_ok (doc v).
Proof.
  destruct v; cbn [doc no_other]; intros H; [apply table_doc_ok| | | |exact H]; apply slice_doc_ok; [apply table_doc_ok|apply fk_doc_ok|apply index_doc_ok].
Qed.

Lemma all_map {A C} (f : A -> option C) (g : A -> C) l : Forall (fun x => f x = Some (g x)) l -> all (map f l) = Some (map g l).
Proof. induction 1 as [|x l H _ IH]; [reflexivity|]. cbn [map all]. rewrite H, IH. reflexivity. Qed.
Lemma rd_slice {A C} (f : A -> json) (rd : json -> option C) (g : A -> C) l : Forall (fun x => rd (json_repaired (f x)) = Some (g x)) (elems l) ->
  rd_list rd (Some (json_repaired (slice_doc f l))) = Some (option_map (map g) l).
Proof.
  destruct l as [l|]; [|reflexivity]. cbn [slice_doc json_repaired rd_list elems option_map]. intros H. rewrite !map_map. rewrite (all_map (fun x => rd (json_repaired (f x))) g l H). reflexivity.
Qed.
Lemma map_id_some {A} (l : option (list A)) : option_map (map (fun x => x)) l = l.
Proof. destruct l; [cbn; rewrite map_id|]; reflexivity. Qed.
Lemma key_utf8 (s : string) : Forall (fun c => byte c < 128) (B s) -> repaired (B s) = B s.
Proof.
  intros H. apply repaired_text. exists (map byte (B s)). split.
  - apply Forall_map. eapply Forall_impl; [|exact H]. intros c Hc. pose proof (byte_range c). left. lia.
  - induction H as [|c l Hc _ IH]; [reflexivity|]. cbn [map flat_map]. rewrite <- IH. unfold utf8_enc. destruct (Z.ltb_spec (byte c) 128); [|lia]. rewrite zb_byte. reflexivity.
Qed.
Definition plain_key (k : bytes) : bool := forallb (fun c => byte c <? 128) k.
Lemma plain_key_same k : plain_key k = true -> repaired k = k.
Proof.
  intros H. apply repaired_text. exists (map byte k). unfold plain_key in H. rewrite forallb_forall in H.
  assert (F : Forall (fun c => byte c < 128) k) by (apply Forall_forall; intros c Hc; apply Z.ltb_lt, H, Hc). split.
  - apply Forall_map. eapply Forall_impl; [|exact F]. intros c Hc. pose proof (byte_range c). left. lia.
  - clear H. induction F as [|c l Hc _ IH]; [reflexivity|]. cbn [map flat_map]. rewrite <- IH. unfold utf8_enc. destruct (Z.ltb_spec (byte c) 128); [|lia]. rewrite zb_byte. reflexivity.
Qed.
Lemma fields_doc k l : forallb (fun kv => plain_key (fst kv)) l = true -> fields (json_repaired (JObj l)) k = option_map json_repaired (field (B k) l).
Proof.
  cbn [json_repaired fields]. induction l as [|[k' v] l IH]; [reflexivity|]. cbn [forallb map field fst snd]. rewrite andb_true_iff. intros [H1 H2]. rewrite (plain_key_same _ H1).
  destruct (beqb (B k) k'); [reflexivity|]. exact (IH H2).
Qed.
Lemma rd_index_doc i : index_utf8 i -> rd_index (json_repaired (index_doc i)) = Some i.
Proof.
  intros (Hn & Hc). destruct i as [n p u c]. unfold index_doc. cbn [pi_name pi_primary pi_unique pi_cols] in *.
  assert (R : rd_list (fun j => rd_str (Some j)) (Some (json_repaired (slice_doc JStr c))) = Some c).
  { rewrite (rd_slice JStr _ (fun x => x)); [f_equal; apply map_id_some|]. eapply Forall_impl; [|exact Hc]. intros x Hx. cbn [json_repaired rd_str]. rewrite (repaired_text x Hx). reflexivity. }
  unfold rd_index. rewrite !fields_doc by reflexivity. cbn - [slice_doc json_repaired rd_list repaired rd_str rd_bool]. rewrite R. cbn [json_repaired rd_str rd_bool]. rewrite (repaired_text n Hn). reflexivity.
Qed.
Lemma rd_column_doc c : column_utf8 c -> rd_column (json_repaired (column_doc c)) = Some (plain_column c).
Proof.
  intros (Hn & Ht & Hu). unfold column_doc, rd_column. rewrite !fields_doc by reflexivity. cbn - [json_repaired rd_num repaired num int_literal fmt_int rd_str rd_bool]. unfold num. cbn [json_repaired rd_str rd_bool rd_num].
  rewrite (repaired_text _ Hn), (repaired_text _ Ht), (repaired_text _ Hu), !int_literal_fmt. reflexivity.
Qed.
Lemma rd_table_doc t : table_utf8 t -> rd_table (json_repaired (table_doc t)) = Some (plain_table t).
Proof.
  intros (Hs & Hn & Ht & Hc & Hi & Hp). unfold table_doc, rd_table. rewrite !fields_doc by reflexivity. cbn - [json_repaired repaired slice_doc rd_list column_doc rd_column rd_str rd_bool]. cbn [json_repaired rd_str rd_bool].
  rewrite (repaired_text _ Hs), (repaired_text _ Hn), (repaired_text _ Ht).
  rewrite (rd_slice column_doc rd_column plain_column) by (eapply Forall_impl; [|exact Hc]; apply rd_column_doc).
  rewrite (rd_slice index_doc rd_index (fun x => x)) by (eapply Forall_impl; [|exact Hi]; apply rd_index_doc). rewrite map_id_some. unfold plain_table.
  destruct (pt_pk t) as [c|]; [|reflexivity]. pose proof (rd_column_doc c Hp) as R. cbn [option_map]. unfold column_doc in *. cbn [json_repaired] in *. rewrite R. reflexivity.
Qed.
Lemma rd_fk_doc k : fk_utf8 k -> rd_fk (json_repaired (fk_doc k)) = Some k.
Proof.
  intros H. unfold fk_utf8 in H. rewrite !Forall_cons_iff in H. destruct H as (H1 & H2 & H3 & H4 & H5 & H6 & H7 & _). destruct k as [a1 a2 a3 a4 a5 a6 a7]. cbn [k_name k_schema k_table k_column k_rschema k_rtable k_rcolumn] in *.
  unfold fk_doc, rd_fk. rewrite !fields_doc by reflexivity. cbn - [json_repaired repaired rd_str rd_bool]. cbn [json_repaired rd_str]. rewrite !repaired_text by assumption. reflexivity.
Qed.
Lemma read_tables l : Forall table_utf8 l -> read_doc rd_table (indent 0 (doc (VTables (Some l))) ++ [ch 10]) = Some (Some (map plain_table l)).
Proof.
  intros H. unfold read_doc. rewrite parse_indent by (apply doc_ok; exact I). cbn [doc].
  rewrite (rd_slice table_doc rd_table plain_table); [reflexivity|]. eapply Forall_impl; [|exact H]. apply rd_table_doc.
Qed.
Lemma read_fks l : Forall fk_utf8 l -> read_doc rd_fk (indent 0 (doc (VFks (Some l))) ++ [ch 10]) = Some (Some l).
Proof.
  intros H. unfold read_doc. rewrite parse_indent by (apply doc_ok; exact I). cbn [doc].
  rewrite (rd_slice fk_doc rd_fk (fun x => x)); [cbn [option_map]; rewrite map_id; reflexivity|]. eapply Forall_impl; [|exact H]. apply rd_fk_doc.
Qed.

(** ** Writers *)
Lemma write_nil s : write s [] = s.
Proof. destruct s as [o [n|]]; unfold write; cbn [k_room k_out]; rewrite ?firstn_nil, app_nil_r; [rewrite Nat.sub_0_r|]; reflexivity. Qed.
Lemma write_write s a b : write (write s a) b = write s (a ++ b).
Proof.
  destruct s as [o [n|]]; unfold write; cbn [k_room k_out]; rewrite <- app_assoc; [|reflexivity]. rewrite firstn_app, app_length. f_equal. f_equal. lia.
Qed.
(** [f] writes [b], whatever the writer. *)
Definition prints (f : sink -> sink) (b : bytes) : Prop := forall s, f s = write s b.
Lemma prints_fold {A} (f : sink -> A -> sink) (g : A -> bytes) l : (forall x, prints (fun s => f s x) (g x)) -> prints (fold_left f l) (flat_map g l).
Proof.
  intros H. induction l as [|x l IH]; intros s; cbn [fold_left flat_map]; [symmetry; apply write_nil|]. rewrite IH, (H x s), write_write. reflexivity.
Qed.
Definition indexes_text (lb : libs) (l : list pindex) : bytes := lb_table lb index_header (map index_cells l) ++ [ch 10].
Definition table_out (lb : libs) (t : ptable) : bytes :=
  (B "Schema: " ++ pt_schema t ++ [ch 10] ++ B "Table: " ++ pt_name t ++ [ch 10; ch 10]) ++ lb_table lb column_header (map column_cells (elems (pt_cols t)))
  ++ (if (0 <? length (elems (pt_idx t)))%nat then (ch 10 :: B "Indexes:" ++ [ch 10]) ++ indexes_text lb (elems (pt_idx t)) else [ch 10]).
Definition value_out (lb : libs) (v : pval) : bytes :=
  match v with
  | VTable t => table_out lb t
  | VTables l => flat_map (table_out lb) (elems l)
  | VFks l => lb_table lb fk_header (map fk_cells (elems l)) ++ [ch 10]
  | VIndexes l => indexes_text lb (elems l)
  | VOther j => indent 0 j ++ [ch 10]
  end.
Lemma prints_table lb t : prints (fun s => print_table lb s t) (table_out lb t).
Proof. intros s. unfold print_table, print_indexes, table_out, indexes_text. cbv zeta. destruct (0 <? length (elems (pt_idx t)))%nat; rewrite !write_write, <- ?app_assoc; reflexivity. Qed.
Lemma prints_value lb v : prints (fun s => print_value lb s v) (value_out lb v).
Proof.
  intros s. destruct v; cbn [print_value value_out].
  - apply prints_table.
  - unfold print_tables. apply (prints_fold (print_table lb)), prints_table.
  - apply write_write.
  - apply write_write.
  - apply write_write.
Qed.
Definition object_out (lb : libs) (format : bytes) (v : pval) : bytes :=
  if beqb format (B "yaml") then match lb_yaml lb v with ROk y => y | _ => [] end
  else if beqb format (B "json") then indent 0 (doc v) ++ [ch 10] else value_out lb v.
Definition object_res (lb : libs) (format : bytes) (v : pval) : outcome unit :=
  if beqb format (B "yaml") then match lb_yaml lb v with ROk _ => ROk tt | RErr e => RErr e | RPanic => RPanic end else ROk tt.
Lemma prints_object lb format v s : print_object lb s format v = (write s (object_out lb format v), object_res lb format v).
Proof.
  unfold print_object, object_out, object_res, print_yaml. destruct (beqb format (B "yaml")).
  - destruct (lb_yaml lb v); rewrite ?write_nil; reflexivity.
  - destruct (beqb format (B "json")); [|rewrite prints_value; reflexivity]. unfold print_json. rewrite write_write. reflexivity.
Qed.
Lemma prints_names l : prints (fun s => print_names s l) (flat_map name_line l).
Proof. intros s. apply (prints_fold (fun s t => write s (name_line t))). intros t s'. reflexivity. Qed.
(** What a command writes and returns, independently of the writer. *)
Lemma run_prints lb format p c : exists b r, forall s, run lb format p c s = (write s b, r).
Proof.
  assert (Z0 : forall (r : outcome unit), exists b r', forall s, (s, r) = (write s b, r')) by (intros r; exists [], r; intros s; rewrite write_nil; reflexivity).
  destruct p as [l|e|]; [|destruct c; apply Z0|destruct c; apply Z0].
  destruct c as [a b d w|a b w|a b|a b]; cbn [run]; unfold cmd_columns, cmd_tables, cmd_views, cmd_fks, with_provider, lift.
  - destruct (l_tables l a b d) as [res|e|]; [|apply Z0|apply Z0]. destruct w.
    + destruct (l_views l a b) as [vres|e|].
      * destruct (0 <? length vres)%nat.
        -- exists (object_out lb format (VTables (Some res)) ++ object_out lb format (VTables (Some vres))), (ROk tt). intros s. rewrite !prints_object. cbn [fst]. rewrite write_write. reflexivity.
        -- exists (object_out lb format (VTables (Some res))), (ROk tt). intros s. rewrite prints_object. reflexivity.
      * exists (object_out lb format (VTables (Some res))), (RErr e). intros s. rewrite prints_object. reflexivity.
      * exists (object_out lb format (VTables (Some res))), RPanic. intros s. rewrite prints_object. reflexivity.
    + exists (object_out lb format (VTables (Some res))), (ROk tt). intros s. rewrite prints_object. reflexivity.
  - destruct (l_tables l a b true) as [res|e|]; [|apply Z0|apply Z0].
    assert (F : forall all, exists b r, forall s, (if structured format then print_object lb s format (VTables (Some all)) else (print_names s all, ROk tt)) = (write s b, r)).
    { intros all. destruct (structured format); eexists _, _; intros s; [apply prints_object|rewrite (prints_names all s); reflexivity]. }
    destruct w; [|apply F]. destruct (l_views l a b) as [vres|e|]; [apply F|apply Z0|apply Z0].
  - destruct (l_views l a b) as [res|e|]; [|apply Z0|apply Z0]. destruct (structured format); eexists _, _; intros s; [apply prints_object|rewrite (prints_names res s); reflexivity].
  - destruct (l_fks l a b) as [res|e|]; [|apply Z0|apply Z0]. eexists _, _. intros s. apply prints_object.
Qed.
Lemma output_room lb format p c n : output lb format p c (Some n) = (firstn n (fst (output lb format p c None)), snd (output lb format p c None)).
Proof. destruct (run_prints lb format p c) as (b & r & H). unfold output. rewrite !H. reflexivity. Qed.

(** ** Lines *)
Lemma lines_split l : Forall (fun t => plain_name (pt_schema t) /\ plain_name (pt_name t)) l ->
  split_on (ch 10) (flat_map name_line l) = map (fun t => pt_schema t ++ B "." ++ pt_name t) l ++ [[]].
Proof.
  induction 1 as [|t l [[_ H1] [_ H2]] _ IH]; [reflexivity|]. cbn [flat_map map app]. unfold name_line at 1.
  replace ((pt_schema t ++ B "." ++ pt_name t ++ [ch 10]) ++ flat_map name_line l) with ((pt_schema t ++ B "." ++ pt_name t) ++ ch 10 :: flat_map name_line l) by (rewrite <- !app_assoc; reflexivity).
  rewrite split_on_cons; [rewrite IH; reflexivity|]. rewrite !in_app_iff. intros [X|[X|X]]; [tauto| |tauto]. destruct X as [X|[]]. discriminate X.
Qed.
Lemma lines_read l : Forall (fun t => plain_name (pt_schema t) /\ plain_name (pt_name t)) l ->
  read_lines (flat_map name_line l) = map (fun t => [pt_schema t; pt_name t]) l.
Proof.
  intros H. unfold read_lines. rewrite (lines_split l H), removelast_app by discriminate. cbn [removelast]. rewrite app_nil_r, map_map. apply map_ext_in. intros t Ht.
  rewrite Forall_forall in H. destruct (H t Ht) as [[H1 _] [H2 _]]. change (B "." ++ pt_name t) with (ch 46 :: pt_name t). rewrite split_on_cons by exact H1. rewrite split_on_word by exact H2. reflexivity.
Qed.

(** ** Cells *)
Lemma column_cells_say c : column_row_says c (column_cells c).
Proof.
  unfold column_cells, column_row_says. eexists _, _, _, _, _. split; [reflexivity|]. split; [apply int_literal_fmt|]. split; [destruct (pc_null c); cbn [yes]; auto|]. split.
  - destruct (Z.ltb_spec 0 (pc_max c)); [left; split; [apply int_literal_fmt|assumption]|right; auto].
  - split; [destruct (pc_idx c); cbn; [right; auto|left; split; [reflexivity|discriminate]]|]. destruct (pc_ref c); reflexivity.
Qed.
Lemma index_cells_say i : index_row_says i (index_cells i).
Proof. unfold index_cells, index_row_says. eexists _, _, _. split; [reflexivity|]. split; [destruct (pi_primary i); cbn [yes]; auto|]. split; [destruct (pi_unique i); cbn [yes]; auto|reflexivity]. Qed.
Lemma Forall2_map {A C} (R : A -> C -> Prop) (f : A -> C) l : (forall x, R x (f x)) -> Forall2 R l (map f l).
Proof. intros H. induction l; constructor; auto. Qed.
Lemma table_out_text lb t : table_text (lb_table lb) t (table_out lb t).
Proof.
  unfold table_out, indexes_text. destruct (elems (pt_idx t)) as [|i l] eqn:E.
  - cbn [length Nat.ltb Nat.leb]. pose proof (tt_plain (lb_table lb) t _ (Forall2_map _ column_cells (elems (pt_cols t)) column_cells_say) E) as T. rewrite <- !app_assoc. exact T.
  - change (0 <? length (i :: l))%nat with true. cbv iota. rewrite <- E.
    pose proof (tt_indexes (lb_table lb) t _ _ (Forall2_map _ column_cells (elems (pt_cols t)) column_cells_say) (Forall2_map _ index_cells (elems (pt_idx t)) index_cells_say)) as T.
    rewrite <- !app_assoc. apply T. rewrite E. discriminate.
Qed.
