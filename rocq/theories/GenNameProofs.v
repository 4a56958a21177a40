(** Proofs about generated names (C158-C160). *)
From Verif Require Import GoBase GoBaseFacts XsqlRender TypeModel ParamModel SchemaModel GenModel GenSpec GenProofs GenMore GenNameSpec.
Open Scope Z_scope.

Lemma equal_fold_iff a b : equal_fold a b = true <-> map lower_ascii a = map lower_ascii b.
Proof. unfold equal_fold. apply beqb_eq. Qed.
Lemma plain_schema_iff s : plain_schema s = true <-> same_word s (B "dbo") \/ same_word s (B "public").
Proof.
  unfold plain_schema, contains_fold. cbn [existsb]. rewrite orb_false_r, orb_true_iff, !equal_fold_iff. unfold same_word. split; intros [H|H]; auto.
Qed.
Lemma go_name_from nm s r : go_name nm s = ROk r -> from_sql nm s r.
Proof.
  destruct s as [|c s]; [discriminate|]. cbn [go_name]. destruct (Ascii.eqb c (ch 95)) eqn:E; intros [= <-].
  - apply Ascii.eqb_eq in E. subst c. apply (fs_under nm s).
  - apply fs_other. intro X. injection X as X. subst c. rewrite (proj2 (Ascii.eqb_eq _ _) eq_refl) in E. discriminate.
Qed.
Lemma column_name_from nm m c r : column_struct_name nm m c = ROk r -> field_name nm (gm_fields m) c r.
Proof.
  unfold column_struct_name. destruct (mget (c_fqn c) (gm_fields m)) as [x|] eqn:E; [intros [= <-]; apply fn_defined; exact E|]. intro H. apply fn_own; [exact E|apply go_name_from, H].
Qed.
Lemma omap_fields nm m l fs : omap (render_field nm m) l = ROk fs -> Forall (fun f => field_name nm (gm_fields m) (gf_col f) (gf_name f)) fs.
Proof.
  intro H. apply (proj1 (omap_ok _ _ _)) in H. induction H as [|c f l fs Hf _ IH]; constructor; [|exact IH].
  unfold render_field in Hf. apply obind_ok in Hf as (n & Hn & Hf). apply obind_ok in Hf as (ty & _ & Hf). injection Hf as <-. cbn [gf_col gf_name]. exact (column_name_from _ _ _ _ Hn).
Qed.
(** What the struct of a table is called. *)
Record names_of (nm : naming) (a : gargs) (m : gmaps) (t : gtab) (s : gstruct) : Prop := {
  n_struct : struct_name nm a (gm_tables m) t (gs_name s);
  n_fields : Forall (fun f => field_name nm (gm_fields m) (gf_col f) (gf_name f)) (gs_fields s);
  n_info : exists v, info_name nm (gm_tables m) t v /\ gs_info s = (if beqb (model_pkg a) (schema_pkg a) then [] else schema_pkg a ++ B ".") ++ v;
  n_cache : gs_cache s = true <-> In (g_fqn t) (gm_cache m) }.
Lemma names_ok nm a m drop t d s : make_def nm a m drop (g_schema t) t = ROk d -> render_struct nm m d = ROk s -> names_of nm a m t s.
Proof.
  unfold make_def. cbv zeta. intros Hd Hs. apply obind_ok in Hd as (tsn & Ht & Hd). injection Hd as <-. unfold render_struct in Hs. apply (proj1 (in_template_ok _ _)) in Hs.
  cbn [td_cols td_struct td_spkg td_tsn td_cache] in Hs. apply obind_ok in Hs as (fs & Hf & Hs). apply obind_ok in Hs as (sc & _ & Hs). injection Hs as <-.
  split; cbn [gs_name gs_fields gs_info gs_cache].
  - destruct (mget (g_fqn t) (gm_tables m)) as [r|] eqn:E; [apply sn_defined; exact E|].
    assert (S : exists sfx, (ga_suffix a = [] /\ sfx = [] \/ ga_suffix a <> [] /\ sfx = nm_pascal nm (ga_suffix a)) /\ (if is_empty (ga_suffix a) then [] else nm_pascal nm (ga_suffix a)) = sfx).
    { eexists. split; [|reflexivity]. destruct (ga_suffix a); cbn [is_empty]; [left|right]; split; congruence. }
    destruct S as (sfx & S & ->). destruct (ga_useschema a) eqn:U; cbn [andb]; [|apply sn_plain; auto].
    destruct (plain_schema (g_schema t)) eqn:P; cbn [negb].
    + apply sn_plain; auto. right. apply plain_schema_iff, P.
    + assert (N : ~ (same_word (g_schema t) (B "dbo") \/ same_word (g_schema t) (B "public"))) by (rewrite <- plain_schema_iff, P; discriminate).
      apply sn_schema; auto.
  - exact (omap_fields _ _ _ _ Hf).
  - unfold table_struct_name, struct_name_of in Ht. destruct (mget (g_fqn t) (gm_tables m)) as [r|] eqn:E.
    + injection Ht as <-. exists (r ++ B "TableInfo"). split; [apply in_defined, E|]. rewrite <- !app_assoc. reflexivity.
    + apply obind_ok in Ht as (r & Hr & Ht). injection Ht as <-. exists (r ++ B "TableInfo"). split; [apply in_own; [exact E|apply go_name_from, Hr]|]. rewrite <- !app_assoc. reflexivity.
  - rewrite existsb_exists. split.
    + intros (x & Hx & E). apply beqb_eq in E. subst x. exact Hx.
    + intro H. exists (g_fqn t). split; [exact H|apply beqb_refl].
Qed.
Lemma all_names_ok nm a m drop s ts ds ss : Forall (fun t => g_schema t = s) ts -> Forall2 (fun t d => make_def nm a m drop s t = ROk d) ts ds -> Forall2 (fun d x => render_struct nm m d = ROk x) ds ss -> Forall2 (names_of nm a m) ts ss.
Proof.
  intros F H. revert ss. induction H as [|t d ts ds Hd _ IH]; intros ss H2; inversion H2; subst; [constructor|]. inversion F; subst. constructor; [eapply names_ok; eassumption|]. apply IH; assumption.
Qed.

(** ** Package clauses *)
Lemma in_slash c : in_set [ch 47] c = true <-> c = ch 47.
Proof. cbn [in_set existsb]. destruct (ascii_dec c (ch 47)); cbn; intuition congruence. Qed.
Lemma slashes_all k : Forall (fun c => in_set [ch 47] c = true) (repeat (ch 47) k).
Proof. induction k; cbn [repeat]; constructor; [reflexivity|assumption]. Qed.
Lemma last_word pre base : (pre = [] \/ exists p, pre = p ++ B "/") -> ~ In (ch 47) base -> last (split_on (ch 47) (pre ++ base)) [] = base.
Proof.
  intros P N. destruct P as [->|[p ->]]; [cbn [app]; rewrite split_on_word by exact N; reflexivity|]. rewrite <- app_assoc. change (B "/" ++ base) with (ch 47 :: base).
  induction p as [|c p IH]; cbn [app split_on].
  - destruct (ascii_dec (ch 47) (ch 47)); [|congruence]. rewrite split_on_word by exact N. reflexivity.
  - destruct (ascii_dec c (ch 47)).
    + pose proof (split_on_nonempty (ch 47) (p ++ ch 47 :: base)) as NE. destruct (split_on (ch 47) (p ++ ch 47 :: base)) as [|w ws]; [congruence|]. exact IH.
    + pose proof (split_on_nonempty (ch 47) (p ++ ch 47 :: base)) as NE. assert (L : (2 <= length (split_on (ch 47) (p ++ ch 47 :: base)))%nat).
      { clear - N. induction p as [|d p IH]; cbn [app split_on].
        - destruct (ascii_dec (ch 47) (ch 47)); [|congruence]. rewrite split_on_word by exact N. cbn. lia.
        - destruct (ascii_dec d (ch 47)); [cbn [length]; lia|]. destruct (split_on (ch 47) (p ++ ch 47 :: base)); cbn [length] in *; lia. }
      destruct (split_on (ch 47) (p ++ ch 47 :: base)) as [|w [|v ws]]; cbn [length] in L; try lia. exact IH.
Qed.
Lemma trim_slashes s k : (s = [] \/ exists p c, s = p ++ [c] /\ c <> ch 47) -> trim_right [ch 47] (s ++ repeat (ch 47) k) = s.
Proof.
  intro H. rewrite trim_right_app_in by apply slashes_all. destruct H as [->|(p & c & -> & N)]; [reflexivity|]. apply trim_right_last. destruct (in_set [ch 47] c) eqn:E; [apply in_slash in E; contradiction|reflexivity].
Qed.
Lemma base_none k : path_base (repeat (ch 47) k) = match k with O => B "." | _ => B "/" end.
Proof.
  destruct k as [|k]; [reflexivity|]. unfold path_base. change (repeat (ch 47) (S k)) with (ch 47 :: repeat (ch 47) k) at 1. cbv beta iota. pose proof (trim_slashes [] (S k) (or_introl eq_refl)) as T. cbn [app] in T. rewrite T. reflexivity.
Qed.
Lemma base_word pre base k : (pre = [] \/ exists p, pre = p ++ B "/") -> base <> [] -> ~ In (ch 47) base -> path_base (pre ++ base ++ repeat (ch 47) k) = base.
Proof.
  intros P NE N. unfold path_base. destruct (pre ++ base ++ repeat (ch 47) k) eqn:E; [apply app_eq_nil in E as [_ E]; apply app_eq_nil in E as [E _]; contradiction|]. rewrite <- E. clear E.
  rewrite app_assoc, trim_slashes.
  - rewrite (last_word _ _ P N). destruct base; [contradiction|reflexivity].
  - right. destruct (exists_last NE) as (b & c & ->). exists (pre ++ b), c. split; [rewrite app_assoc; reflexivity|]. intros ->. apply N, in_or_app. right. left. reflexivity.
Qed.
(** Every path is of one of the forms. *)
Lemma slash_tail s : exists p k, s = p ++ repeat (ch 47) k /\ (p = [] \/ exists q c, p = q ++ [c] /\ c <> ch 47).
Proof.
  induction s as [|c s IH] using rev_ind; [exists [], O; split; [reflexivity|left; reflexivity]|]. destruct (ascii_dec c (ch 47)) as [->|N].
  - destruct IH as (p & k & -> & H). exists p, (S k). split; [|exact H]. rewrite <- app_assoc. f_equal. clear. induction k; cbn [repeat app]; [reflexivity|]. f_equal. exact IHk.
  - exists (s ++ [c]), O. cbn [repeat]. rewrite app_nil_r. split; [reflexivity|]. right. exists s, c. split; [reflexivity|exact N].
Qed.
Lemma last_slash p : exists pre base, p = pre ++ base /\ (pre = [] \/ exists q, pre = q ++ B "/") /\ ~ In (ch 47) base.
Proof.
  induction p as [|c p IH] using rev_ind; [exists [], []; split; [reflexivity|split; [left; reflexivity|intros []]]|]. destruct (ascii_dec c (ch 47)) as [->|N].
  - exists (p ++ [ch 47]), []. split; [rewrite app_nil_r; reflexivity|]. split; [right; exists p; reflexivity|intros []].
  - destruct IH as (pre & base & -> & P & Nb). exists pre, (base ++ [c]). split; [rewrite app_assoc; reflexivity|]. split; [exact P|]. rewrite in_app_iff. intros [X|[X|[]]]; [contradiction|congruence].
Qed.
Lemma package_ok flag dir : package_of flag dir (strings_coalesce flag (package_name dir)).
Proof.
  unfold strings_coalesce. destruct flag as [|c flag]; cbn [is_empty]; [|apply po_flag; discriminate].
  destruct (slash_tail dir) as (p & k & -> & H). destruct H as [->|(q & c & E & N)].
  - cbn [app]. unfold package_name. rewrite base_none. destruct k; eapply po_none; reflexivity.
  - destruct (last_slash p) as (pre & base & -> & P & Nb). assert (NE : base <> []).
    { intros ->. rewrite app_nil_r in E. destruct P as [->|[q' ->]]; [destruct q; discriminate|]. apply app_inj_tail in E as [_ E]. apply N. rewrite <- E. reflexivity. }
    rewrite <- app_assoc. unfold package_name. rewrite (base_word _ _ _ P NE Nb). destruct (beqb base (B ".")) eqn:E1.
    + apply beqb_eq in E1. subst base. apply (po_dot _ _ pre k); [reflexivity|reflexivity|exact P].
    + destruct (beqb base (B "/")) eqn:E2; [apply beqb_eq in E2; exfalso; apply Nb; rewrite E2; left; reflexivity|].
      destruct (beqb base []) eqn:E3; [apply beqb_eq in E3; contradiction|]. cbn [orb].
      apply (po_base _ _ pre base k); [reflexivity|reflexivity|exact P|exact NE|intro X; rewrite X in E1; discriminate|exact Nb].
Qed.
Lemma package_unique flag dir p : package_of flag dir p -> p = strings_coalesce flag (package_name dir).
Proof.
  unfold strings_coalesce. intros [NE|k -> ->|pre k -> -> P|pre base k -> -> P NE ND N].
  - destruct flag; [contradiction|reflexivity].
  - cbn [is_empty]. unfold package_name. rewrite base_none. destruct k; reflexivity.
  - cbn [is_empty]. unfold package_name. rewrite base_word; [reflexivity|exact P|discriminate|]. intros [X|[]]. discriminate.
  - cbn [is_empty]. unfold package_name. rewrite (base_word _ _ _ P NE N). destruct base as [|b base]; [contradiction|].
    destruct (beqb (b :: base) (B ".")) eqn:E1; [apply beqb_eq in E1; contradiction|]. destruct (beqb (b :: base) (B "/")) eqn:E2; [apply beqb_eq in E2; exfalso; apply N; rewrite E2; left; reflexivity|]. reflexivity.
Qed.

(** ** Column literals *)
Definition lex_after (st : lex_state) (x : option (list tok)) : option (list tok) := match st with LxFree => x | LxWord acc => option_map (cons (TWord acc)) x | LxString _ => None end.
Lemma lex_text s : literal_text s -> forall acc r, lex (LxString acc) (s ++ ch 34 :: r) = option_map (cons (TString (acc ++ s))) (lex LxFree r).
Proof.
  induction 1 as [|c s (N1 & N2 & N3) _ IH]; intros acc r; cbn [app lex].
  - rewrite (proj2 (Ascii.eqb_eq _ _) eq_refl), app_nil_r. reflexivity.
  - rewrite (proj2 (Ascii.eqb_neq _ _) N1), (proj2 (Ascii.eqb_neq _ _) N2), (proj2 (Ascii.eqb_neq _ _) N3). cbn [orb]. rewrite IH, <- app_assoc. reflexivity.
Qed.
Lemma lex_word w : Forall (fun c => word_char c = true) w -> forall acc r, lex (LxWord acc) (w ++ r) = lex (LxWord (acc ++ w)) r.
Proof.
  induction 1 as [|c w H _ IH]; intros acc r; cbn [app]; [rewrite app_nil_r; reflexivity|]. cbn [lex]. rewrite H, IH, <- app_assoc. reflexivity.
Qed.
Lemma lex_number n r : 0 <= n -> lex LxFree (fmt_uint 10 n ++ r) = lex (LxWord (fmt_uint 10 n)) r.
Proof.
  intro P. pose proof (fmt_uint_nonempty 10 n ltac:(lia) P) as NE. pose proof (fmt_uint_chars 10 n ltac:(lia) P) as F.
  assert (W : Forall (fun c => word_char c = true) (fmt_uint 10 n)).
  { eapply Forall_impl; [|exact F]. intros c (d & Hd & ->). assert (C : In d [0;1;2;3;4;5;6;7;8;9]) by (cbn [In]; lia). clear - C. cbn [In] in C. repeat (destruct C as [<-|C]; [reflexivity|]). destruct C. }
  destruct (fmt_uint 10 n) as [|c w]; [contradiction|]. inversion W as [|? ? Wc Ww]; subst. cbn [app lex]. rewrite Wc. rewrite (lex_word _ Ww). reflexivity.
Qed.
Definition pre_toks (l : list tok) (x : option (list tok)) : option (list tok) := option_map (app l) x.
Lemma pre_cons t l x : option_map (cons t) (pre_toks l x) = pre_toks (t :: l) x. Proof. destruct x; reflexivity. Qed.
Lemma pre_pre l l' x : pre_toks l (pre_toks l' x) = pre_toks (l ++ l') x. Proof. destruct x; cbn; [rewrite app_assoc|]; reflexivity. Qed.
Lemma pre_one t x : option_map (cons t) x = pre_toks [t] x. Proof. reflexivity. Qed.
Fixpoint pre_fold (l : list tok) (x : option (list tok)) : option (list tok) := match l with [] => x | t :: r => option_map (cons t) (pre_fold r x) end.
Lemma pre_fold_eq l x : pre_fold l x = pre_toks l x.
Proof. induction l as [|t l IH]; cbn [pre_fold]; [destruct x; reflexivity|]. rewrite IH. apply pre_cons. Qed.
Lemma lx_name r : lex LxFree (B "{ Name: """ ++ r) = pre_toks [TPunct (ch 123); TWord (B "Name"); TPunct (ch 58)] (lex (LxString []) r).
Proof. rewrite <- pre_fold_eq. reflexivity. Qed.
Lemma lx_pos r : lex LxFree (B ", Position: " ++ r) = pre_toks (lit_comma ++ [TWord (B "Position"); TPunct (ch 58)]) (lex LxFree r).
Proof. rewrite <- pre_fold_eq. reflexivity. Qed.
Lemma lx_type w r : lex (LxWord w) (B ", Type: """ ++ r) = pre_toks (TWord w :: lit_comma ++ [TWord (B "Type"); TPunct (ch 58)]) (lex (LxString []) r).
Proof. rewrite <- pre_fold_eq. reflexivity. Qed.
Lemma lx_udt r : lex LxFree (B ", UdtType: """ ++ r) = pre_toks (lit_comma ++ [TWord (B "UdtType"); TPunct (ch 58)]) (lex (LxString []) r).
Proof. rewrite <- pre_fold_eq. reflexivity. Qed.
Lemma lx_null (b : bool) r : lex LxFree (B ", Nullable: " ++ (if b then B "true" else B "false") ++ B " " ++ r) = pre_toks (lit_comma ++ lit_field "Nullable" (TWord (if b then B "true" else B "false"))) (lex LxFree r).
Proof. rewrite <- pre_fold_eq. destruct b; reflexivity. Qed.
Lemma lx_max r : lex LxFree (B ", MaxLength: " ++ r) = pre_toks (lit_comma ++ [TWord (B "MaxLength"); TPunct (ch 58)]) (lex LxFree r).
Proof. rewrite <- pre_fold_eq. reflexivity. Qed.
Lemma lx_end w : lex (LxWord w) (B " }") = Some [TWord w; TPunct (ch 125)].
Proof. reflexivity. Qed.
Lemma literal_ok c : literal_text (c_name c) -> literal_text (c_type c) -> literal_text (c_udt c) -> 0 <= c_pos c ->
  tokens (struct_string c) = Some (lit_of (lit_field "Name" (TString (c_name c)) ++ lit_comma ++ lit_field "Position" (TWord (fmt_uint 10 (c_pos c))) ++ lit_comma ++ lit_field "Type" (TString (c_type c)) ++ lit_comma ++
    lit_field "UdtType" (TString (c_udt c)) ++ lit_comma ++ lit_field "Nullable" (TWord (if c_null c then B "true" else B "false")) ++ (if 0 <? c_max c then lit_comma ++ lit_field "MaxLength" (TWord (fmt_uint 10 (c_max c))) else []))).
Proof.
  intros Hn Ht Hu Hp. unfold tokens, struct_string. rewrite lx_name. change (B """, Position: ") with ([ch 34] ++ B ", Position: "). rewrite <- !app_assoc. cbn [app].
  rewrite (lex_text _ Hn). rewrite lx_pos, (lex_number _ _ Hp), lx_type. change (B """, UdtType: """) with ([ch 34] ++ B ", UdtType: """). rewrite <- !app_assoc. cbn [app].
  rewrite (lex_text _ Ht). rewrite lx_udt. change (B """, Nullable: ") with ([ch 34] ++ B ", Nullable: "). rewrite <- !app_assoc. cbn [app]. rewrite (lex_text _ Hu).
  cbn [app]. rewrite lx_null. destruct (0 <? c_max c) eqn:M.
  - rewrite <- !app_assoc, lx_max, lex_number by lia. change (B " " ++ B "}") with (B " }"). rewrite lx_end. unfold lit_field, lit_comma, lit_of, pre_toks. cbn [app option_map]. reflexivity.
  - unfold lit_field, lit_comma, lit_of, pre_toks. cbn. reflexivity.
Qed.
