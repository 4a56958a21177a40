(** Properties of generated names (C158), package clauses (C159), column
    literals (C160). *)
From Verif Require Import GoBase GoBaseFacts TypeModel ParamModel SchemaModel GenModel GenSpec GenProofs GenMore GenNameSpec GenNameProofs.
From Verif Require GenProps.
Open Scope Z_scope.

(** ** C158: names of structs, fields and TableInfo variables *)
(** In the model file of every schema the structs are, in the order of the
    tables, named as specified, with the definitions in force after the run. *)
Theorem C158_names : forall nm fok a ts ord m w m' w' s, schema_order ord ts -> generate nm fok a ts ord m w = ((m', w'), ROk tt) -> In s (map g_schema ts) ->
  exists mf dia ss, named ts s model_base mf /\ emitted (ga_outm a) mf w w' (GModel (model_pkg a) dia ss) /\
    Forall2 (fun t x => struct_name nm a (gm_tables m') t (gs_name x) /\
      Forall (fun f => field_name nm (gm_fields m') (gf_col f) (gf_name f)) (gs_fields x) /\
      (exists v, info_name nm (gm_tables m') t v /\ gs_info x = (if beqb (model_pkg a) (schema_pkg a) then [] else schema_pkg a ++ B ".") ++ v) /\
      (gs_cache x = true <-> In (g_fqn t) (gm_cache m'))) (tables_of s ts) ss.
Proof.
  intros nm fok a ts ord m w m' w' s HO H Hs. destruct (generate_ok _ _ _ _ _ _ _ _ _ H) as (Em & E). pose proof (order_multi _ _ HO) as HM. destruct HO as [ND HO].
  destruct (each_schema_ok _ _ _ _ _ _ _ _ _ _ _ _ HM ND E) as (_ & P). apply HO in Hs. destruct (in_split _ _ Hs) as (o1 & o2 & Eo).
  destruct (P _ _ _ Eo) as (od & (ss & older & gi & mv & gc0 & gc & P1 & _ & _ & _ & _ & _ & _ & ds & D1 & D2) & _). rewrite by_schema_get in D1.
  eexists _, _, ss. split; [apply named_file|]. split; [exact P1|].
  assert (N : Forall2 (names_of nm a m') (tables_of s ts) ss).
  { eapply all_names_ok; [|exact D1|exact D2]. apply Forall_forall. intros t Ht. apply filter_In in Ht as [_ Ht]. apply beqb_eq, Ht. }
  clear - N. induction N as [|t x l l' [N1 N2 N3 N4] _ IH]; constructor; [|exact IH]. split; [exact N1|]. split; [exact N2|]. split; [exact N3|exact N4].
Qed.
Definition nm_up : naming := mkNm (fun s => match s with c :: r => (if ascii_dec c (ch 111) then ch 79 else if ascii_dec c (ch 115) then ch 83 else c) :: r | [] => [] end) (fun s => s).
(** The second schema gets its prefix; public does not. *)
Example C158_names_ex : exists m' w' x y, generate nm_up GenProps.ex_fok (GenProps.ex_args []) [GenProps.ex_users; GenProps.ex_orders] [B "shop"; B "public"] no_maps GenProps.ex_world = ((m', w'), ROk tt) /\
  fget (B "out/model", B "shop_" ++ model_base) (w_fs w') = Some (GModel (B "model") true [x]) /\ gs_name x = B "ShopOrder" /\ gs_info x = B "schema.OrderTableInfo" /\
  fget (B "out/model", B "public_" ++ model_base) (w_fs w') = Some (GModel (B "model") true [y]) /\ gs_name y = B "user".
Proof. eexists _, _, _, _. repeat split; vm_compute; reflexivity. Qed.
(** The specification names one thing only. *)
Theorem C158_unique : forall nm a tables t x y, struct_name nm a tables t x -> struct_name nm a tables t y -> x = y.
Proof.
  assert (S : forall nm a x y, (ga_suffix a = [] /\ x = [] \/ ga_suffix a <> [] /\ x = nm_pascal nm (ga_suffix a)) -> (ga_suffix a = [] /\ y = [] \/ ga_suffix a <> [] /\ y = nm_pascal nm (ga_suffix a)) -> x = y).
  { intros nm a x y [[A ->]|[A ->]] [[C ->]|[C ->]]; congruence. }
  intros nm a tables t x y [r D|s1 D U S1|s1 D U N1 N2 S1] [r' D'|s2 D' U' S2|s2 D' U' N3 N4 S2]; try congruence;
    try (rewrite (S nm a s1 s2 S1 S2); reflexivity); exfalso; intuition congruence.
Qed.
(** Two schemas can have tables of one name: without -use-schema their structs
    have the same name. *)
Theorem C106_same_name_refuted : exists a t1 t2 x, g_schema t1 <> g_schema t2 /\ struct_name GenProps.ex_nm a [] t1 x /\ struct_name GenProps.ex_nm a [] t2 x.
Proof.
  exists (mkGA (B "db") (B "m") (B "s") [] [] [] false None), (GenProps.ex_t "public" "user" [] None), (GenProps.ex_t "shop" "user" [] None), (B "user" ++ []).
  split; [discriminate|]. split; apply sn_plain; try reflexivity; try (left; reflexivity); left; split; reflexivity.
Qed.

(** ** C159: the package clause *)
Theorem C159_package : forall flag dir p, strings_coalesce flag (package_name dir) = p <-> package_of flag dir p.
Proof. intros flag dir p. split; [intros <-; apply package_ok | intro H; symmetry; apply package_unique, H]. Qed.
(** Both kinds of file carry it: see C70_generated for the schema file. *)
Theorem C159_clause : forall nm fok a ts ord m w m' w' s, schema_order ord ts -> generate nm fok a ts ord m w = ((m', w'), ROk tt) -> In s (map g_schema ts) ->
  exists mf sf pm ps dia ss gi mv en gc, named ts s model_base mf /\ named ts s schema_base sf /\ emitted (ga_outm a) mf w w' (GModel pm dia ss) /\ emitted (ga_outs a) sf w w' (GSchema ps gi mv en gc) /\
    package_of (ga_pkgm a) (ga_outm a) pm /\ package_of (ga_pkgs a) (ga_outs a) ps.
Proof.
  intros nm fok a ts ord m w m' w' s HO H Hs. destruct (GenProps.C70_generated _ _ _ _ _ _ _ _ _ HO H s Hs) as (mf & sf & dia & ss & older & gi & mv & en & gc0 & gc & N1 & N2 & E1 & E2 & _).
  eexists mf, sf, _, _, dia, ss, _, mv, en, _. split; [exact N1|]. split; [exact N2|]. split; [exact E1|]. split; [exact E2|]. split; apply package_ok.
Qed.
Example C159_ex : package_of [] (B "out/gen/model/") (B "model") /\ package_of [] (B "gen/db") (B "db") /\ package_of [] [] (B "model") /\ package_of (B "x") (B "gen/db") (B "x") /\
  exists m' w', generate GenProps.ex_nm GenProps.ex_fok (GenProps.ex_args []) [GenProps.ex_users] [B "public"] no_maps GenProps.ex_world = ((m', w'), ROk tt).
Proof. repeat split; try (apply C159_package; vm_compute; reflexivity). eexists _, _. vm_compute. reflexivity. Qed.

(** ** C160: the literal of a column says what the column is *)
Theorem C160_literal_partial : forall c, literal_text (c_name c) -> literal_text (c_type c) -> literal_text (c_udt c) -> 0 <= c_pos c < 2 ^ 32 -> 0 <= c_max c < 2 ^ 32 ->
  exists wp wm, number wp (c_pos c) /\ number wm (c_max c) /\
  tokens (struct_string c) = Some (lit_of (lit_field "Name" (TString (c_name c)) ++ lit_comma ++ lit_field "Position" (TWord wp) ++ lit_comma ++ lit_field "Type" (TString (c_type c)) ++ lit_comma ++
    lit_field "UdtType" (TString (c_udt c)) ++ lit_comma ++ lit_field "Nullable" (TWord (if c_null c then B "true" else B "false")) ++ (if 0 <? c_max c then lit_comma ++ lit_field "MaxLength" (TWord wm) else []))).
Proof.
  intros c Hn Ht Hu Hp Hm. exists (fmt_uint 10 (c_pos c)), (fmt_uint 10 (c_max c)). split; [apply parse_uint_fmt; lia|]. split; [apply parse_uint_fmt; lia|]. apply literal_ok; try assumption. lia.
Qed.
Example C160_literal_ex : let c := mkCol (B "name") (B "character varying") (B "varchar") true 64 2 (B "public.user.name") None [] in
  (literal_text (c_name c) /\ literal_text (c_type c) /\ literal_text (c_udt c)) /\ struct_string c = B "{ Name: ""name"", Position: 2, Type: ""character varying"", UdtType: ""varchar"", Nullable: true , MaxLength: 64 }".
Proof. cbv zeta. split; [repeat split; repeat constructor; discriminate|]. vm_compute. reflexivity. Qed.
(** A quote in a name -- legal in a quoted SQL identifier -- ends the literal
    early: the text is not a literal of the column. *)
Theorem C160_quote_refuted : exists c, c_name c = B "a""b" /\ tokens (struct_string c) = None.
Proof. exists (mkCol (B "a""b") (B "text") (B "text") false 0 1 (B "public.t.a""b") None []). split; [reflexivity|]. vm_compute. reflexivity. Qed.

Lemma lex_first s : forall acc r ts, lex (LxString acc) (s ++ ch 34 :: r) = Some (TString (acc ++ s) :: ts) -> literal_text s.
Proof.
  induction s as [|c s IH]; intros acc r ts H; [constructor|]. cbn [app lex] in H. destruct (Ascii.eqb_spec c (ch 34)) as [->|N1].
  - exfalso. destruct (lex LxFree (s ++ ch 34 :: r)); [|discriminate H]. cbn [option_map] in H. injection H as H _. apply (f_equal (@length ascii)) in H. rewrite app_length in H. cbn [length] in H. lia.
  - destruct (Ascii.eqb_spec c (ch 92)) as [->|N2]; [discriminate H|]. destruct (Ascii.eqb_spec c (ch 10)) as [->|N3]; [discriminate H|]. cbn [orb] in H.
    constructor; [auto|]. apply (IH (acc ++ [c]) r ts). rewrite <- app_assoc. exact H.
Qed.
(** Exactly those columns: a quote, a backslash or a line feed in the name or in
    a type always spoils the literal. *)
Theorem C160_exact_partial : forall c, 0 <= c_pos c < 2 ^ 32 -> 0 <= c_max c < 2 ^ 32 ->
  ((exists wp wm, number wp (c_pos c) /\ number wm (c_max c) /\
    tokens (struct_string c) = Some (lit_of (lit_field "Name" (TString (c_name c)) ++ lit_comma ++ lit_field "Position" (TWord wp) ++ lit_comma ++ lit_field "Type" (TString (c_type c)) ++ lit_comma ++
      lit_field "UdtType" (TString (c_udt c)) ++ lit_comma ++ lit_field "Nullable" (TWord (if c_null c then B "true" else B "false")) ++ (if 0 <? c_max c then lit_comma ++ lit_field "MaxLength" (TWord wm) else []))))
   <-> literal_text (c_name c) /\ literal_text (c_type c) /\ literal_text (c_udt c)).
Proof.
  intros c Hp Hm. split; [|intros (Hn & Ht & Hu); apply C160_literal_partial; assumption].
  intros (wp & wm & _ & _ & H). revert H. generalize (if 0 <? c_max c then lit_comma ++ lit_field "MaxLength" (TWord wm) else []). intros mx.
  unfold tokens, struct_string. rewrite lx_name. change (B """, Position: ") with ([ch 34] ++ B ", Position: "). rewrite <- !app_assoc. cbn [app]. intros H.
  unfold pre_toks in H. destruct (lex (LxString []) _) as [l|] eqn:L; [|discriminate H]. cbn [option_map] in H. unfold lit_of, lit_field in H. cbn [app] in H. injection H as H. subst l.
  assert (Hn : literal_text (c_name c)) by (eapply (lex_first _ []); exact L). split; [exact Hn|].
  rewrite (lex_text _ Hn) in L. rewrite lx_pos, (lex_number _ _ (proj1 Hp)), lx_type in L. change (B """, UdtType: """) with ([ch 34] ++ B ", UdtType: """) in L. rewrite <- !app_assoc in L. cbn [app] in L.
  unfold pre_toks in L. destruct (lex (LxString []) _) as [l|] eqn:L1; [|discriminate L]. cbn [option_map] in L. unfold lit_comma in L. cbn [app] in L. injection L as _ L. subst l.
  assert (Ht : literal_text (c_type c)) by (eapply (lex_first _ []); exact L1). split; [exact Ht|].
  rewrite (lex_text _ Ht) in L1. rewrite lx_udt in L1. change (B """, Nullable: ") with ([ch 34] ++ B ", Nullable: ") in L1. rewrite <- !app_assoc in L1. cbn [app] in L1.
  unfold pre_toks in L1. destruct (lex (LxString []) _) as [l|] eqn:L2; [|discriminate L1]. cbn [option_map] in L1. unfold lit_comma in L1. cbn [app] in L1. injection L1 as L1. subst l.
  eapply (lex_first _ []); exact L2.
Qed.
Example C160_exact_ex : ~ literal_text (B "a""b") /\ ~ literal_text (B "a\b") /\ literal_text (B "a b").
Proof.
  split; [|split]; [intros H|intros H|repeat constructor; discriminate]; unfold literal_text in H; rewrite Forall_forall in H.
  - destruct (H (ch 34)) as [N _]; [right; left; reflexivity|congruence].
  - destruct (H (ch 92)) as (_ & N & _); [right; left; reflexivity|congruence].
Qed.

(** ** Assumptions *)
Print Assumptions C158_names.
Print Assumptions C158_unique.
Print Assumptions C106_same_name_refuted.
Print Assumptions C159_package.
Print Assumptions C159_clause.
Print Assumptions C160_literal_partial.
Print Assumptions C160_quote_refuted.
Print Assumptions C160_exact_partial.
