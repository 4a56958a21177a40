(** What a successful generation writes. *)
From Verif Require Import GoBase GoBaseFacts TypeModel ParamModel SchemaModel SchemaProofs GenModel GenSpec.
From Coq Require Import Permutation.
Open Scope Z_scope.

Lemma omap_ok {A C} (f : A -> outcome C) l r : omap f l = ROk r <-> Forall2 (fun a b => f a = ROk b) l r.
Proof.
  revert r; induction l as [|a l IH]; intro r; cbn [omap].
  - split; [intro E; injection E as <-; constructor | intro H; inversion H; reflexivity].
  - split.
    + destruct (f a) as [b| |] eqn:E; cbn [obind]; try discriminate. destruct (omap f l) as [bs| |] eqn:El; cbn [obind]; try discriminate.
      intro X; injection X as <-. constructor; [exact E | apply IH; reflexivity].
    + intro H. inversion H as [|a' b l' bs Hb Hbs]; subst. rewrite Hb. cbn [obind]. apply IH in Hbs. rewrite Hbs. reflexivity.
Qed.
Lemma obind_ok {A C} (x : outcome A) (f : A -> outcome C) r : obind x f = ROk r <-> exists a, x = ROk a /\ f a = ROk r.
Proof.
  destruct x as [a| |]; cbn [obind]; split; try discriminate; try (intros (a' & E & _); discriminate).
  - intro H. exists a. auto.
  - intros (a' & E & H). injection E as <-. exact H.
Qed.
Lemma in_template_ok {A} (x : outcome A) r : in_template x = ROk r <-> x = ROk r.
Proof. destruct x; cbn [in_template]; split; congruence. Qed.

(** Names *)
Lemma struct_name_info nm tb name fqn a b : struct_name_of nm tb (B "Table") name fqn = ROk a -> struct_name_of nm tb (B "TableInfo") name fqn = ROk b -> a ++ B "Info" = b.
Proof.
  unfold struct_name_of. destruct (mget fqn tb) as [r|].
  - intros E1 E2. injection E1 as <-. injection E2 as <-. rewrite <- app_assoc. reflexivity.
  - destruct (go_name nm (nm_singular nm name)) as [n| |]; cbn [obind]; try discriminate. intros E1 E2. injection E1 as <-. injection E2 as <-. rewrite <- app_assoc. reflexivity.
Qed.

(** Columns *)
Lemma dropped_in drop n : dropped drop n = true <-> In n drop.
Proof. unfold dropped. rewrite existsb_exists. split; [intros (x & Hx & E); apply beqb_eq in E as <-; exact Hx | intro H; exists n; split; [exact H | apply beqb_refl]]. Qed.
Lemma filter_keeps drop l : keeps drop l (filter_columns drop l).
Proof.
  unfold filter_columns. induction l as [|c l IH]; cbn [filter]; [constructor|]. destruct (dropped drop (c_name c)) eqn:E; cbn [negb].
  - apply kp_drop; [apply dropped_in; exact E | exact IH].
  - apply kp_keep; [|exact IH]. intro H. apply dropped_in in H. congruence.
Qed.
Lemma filter_names_columns drop l : filter_names drop (map c_name l) = map c_name (filter_columns drop l).
Proof. unfold filter_names, filter_columns. induction l as [|c l IH]; cbn [map filter]; [reflexivity|]. destruct (dropped drop (c_name c)); cbn [negb map]; rewrite IH; reflexivity. Qed.
Lemma fields_of nm m l fs : Forall2 (fun c f => render_field nm m c = ROk f) l fs ->
  map gf_col fs = l /\ Forall (fun f => to_go_type (gm_types m) (gf_col f) = ROk (gf_type f)) fs /\ Forall (fun f => gf_tag f = tag (gf_col f)) fs /\
  Forall2 (fun c n => column_struct_name nm m c = ROk n) l (map gf_name fs).
Proof.
  induction 1 as [|c f l fs Hf _ (I1 & I2 & I3 & I4)]; [repeat split; constructor|].
  unfold render_field in Hf. apply obind_ok in Hf as (n & Hn & Hf). apply obind_ok in Hf as (ty & Hty & Hf). injection Hf as <-.
  cbn [map gf_col gf_name]. split; [rewrite I1; reflexivity|]. split; [constructor; assumption|]. split; [constructor; [reflexivity|assumption]|]. constructor; assumption.
Qed.
Lemma Forall2_fun {A C} (f : A -> outcome C) l r r' : Forall2 (fun a b => f a = ROk b) l r -> Forall2 (fun a b => f a = ROk b) l r' -> r = r'.
Proof. intro H. revert r'. induction H as [|a b l r Hb _ IH]; intros r' H'; inversion H' as [|? b' ? ? Hb' H2]; subst; [reflexivity|]. rewrite Hb in Hb'. injection Hb' as <-. rewrite (IH _ H2). reflexivity. Qed.
Definition spkg_of (a : gargs) : bytes := if beqb (model_pkg a) (schema_pkg a) then [] else schema_pkg a ++ B ".".

Lemma of_table_ok nm a m drop sn t d s i g : make_def nm a m drop sn t = ROk d -> render_struct nm m d = ROk s -> render_info nm m (make_info drop t) = ROk i -> render_cols nm m d = ROk g ->
  of_table (gm_types m) drop (spkg_of a) t s i g.
Proof.
  intros Hd Hs Hi Hg. unfold make_def in Hd. cbv zeta in Hd. apply obind_ok in Hd as (tsn & Ht & Hd). injection Hd as <-.
  unfold render_struct in Hs. apply (proj1 (in_template_ok _ _)) in Hs. cbn [td_cols td_struct td_spkg td_tsn td_cache] in *.
  apply obind_ok in Hs as (fs & Hfs & Hs). apply obind_ok in Hs as (scan & Hscan & Hs). injection Hs as <-.
  apply (proj1 (omap_ok _ _ _)) in Hfs. apply (proj1 (omap_ok _ _ _)) in Hscan. destruct (fields_of _ _ _ _ Hfs) as (F1 & F2 & F3 & F4).
  assert (Es : scan = map gf_name fs) by (eapply Forall2_fun; eassumption). subst scan.
  unfold render_info in Hi. apply obind_ok in Hi as (v & Hv & Hi). injection Hi as <-.
  unfold render_cols in Hg. apply obind_ok in Hg as (gf & Hgf & Hg). injection Hg as <-. apply (proj1 (omap_ok _ _ _)) in Hgf.
  unfold table_info_struct_name in Hv. cbn [make_info ti_name ti_fqn] in Hv. unfold table_struct_name in Ht.
  pose proof (struct_name_info _ _ _ _ _ _ Ht Hv) as EI.
  split; cbn [gs_fields gs_scan gs_info gs_name gi_info gi_var gc_name gc_info gc_fields make_info ti_columns ti_schema ti_name ti_fqn ti_pk ti_indexes td_cols td_tsn td_struct].
  - rewrite F1. apply filter_keeps.
  - exact F2.
  - exact F3.
  - reflexivity.
  - rewrite filter_names_columns, <- F1, map_map. reflexivity.
  - unfold spkg_of. f_equal. exact EI.
  - repeat split.
  - reflexivity.
  - reflexivity.
  - repeat split; [exact EI|]. cbn [td_cols] in Hgf. clear - F4 F1 Hgf. rewrite <- F1 in Hgf. assert (G : Forall2 (fun c n => column_struct_name nm m c = ROk n) (map gf_col fs) (map gf_name fs)) by (rewrite F1; exact F4).
    clear - G Hgf. revert gf Hgf. induction fs as [|f fs IH]; intros gf H; inversion H as [|x y l l' Hy Hl]; subst; [reflexivity|].
    inversion G as [|? ? ? ? G1 G2]; subst. apply obind_ok in Hy as (n & Hn & E). injection E as <-. rewrite G1 in Hn. injection Hn as <-. cbn [map]. rewrite (IH G2 _ Hl). reflexivity.
Qed.

(** The tables of one schema *)
Lemma each_table_ok nm a m drop sn ts infos defs acc ss : each_table nm a m drop sn ts infos defs = (acc, ROk ss) ->
  exists ds, acc = (infos ++ map (make_info drop) ts, defs ++ ds) /\ Forall2 (fun t d => make_def nm a m drop sn t = ROk d) ts ds /\ Forall2 (fun d s => render_struct nm m d = ROk s) ds ss.
Proof.
  revert infos defs acc ss; induction ts as [|t ts IH]; intros infos defs acc ss; cbn [each_table].
  - intro E. injection E as <- <-. exists []. cbn [map]. rewrite !app_nil_r. repeat split; constructor.
  - destruct (make_def nm a m drop sn t) as [d| |] eqn:Ed; try discriminate. destruct (render_struct nm m d) as [s| |] eqn:Es; try discriminate.
    destruct (each_table nm a m drop sn ts (infos ++ [make_info drop t]) (defs ++ [d])) as [x [ss'| |]] eqn:E; try discriminate. intro X. injection X as <- <-.
    destruct (IH _ _ _ _ E) as (ds & -> & H1 & H2). exists (d :: ds). rewrite <- !app_assoc. cbn [map]. repeat split; constructor; assumption.
Qed.
Lemma render_schema_ok nm a m infos defs f : render_schema nm a m infos defs = ROk f ->
  exists gi mv en gc, f = GSchema (schema_pkg a) gi mv en gc /\ Forall2 (fun i g => render_info nm m i = ROk g) infos gi /\ Forall2 (fun d g => render_cols nm m d = ROk g) defs gc /\
  en = map (fun g => (ti_name (gi_info g), gi_var g)) gi /\ exists db, go_name nm (ga_db a) = ROk db /\ mv = db ++ B "Tables".
Proof.
  unfold render_schema. intro H. apply (proj1 (in_template_ok _ _)) in H. apply obind_ok in H as (gi & Hgi & H). apply obind_ok in H as (db & Hdb & H). apply obind_ok in H as (gc & Hgc & H). injection H as <-.
  exists gi, (db ++ B "Tables"), (map (fun g => (ti_name (gi_info g), gi_var g)) gi), gc. apply (proj1 (omap_ok _ _ _)) in Hgi. apply (proj1 (omap_ok _ _ _)) in Hgc.
  repeat split; try assumption. exists db. auto.
Qed.
Lemma tables_match nm a m drop sn ts ds ss gi gc : Forall2 (fun t d => make_def nm a m drop sn t = ROk d) ts ds -> Forall2 (fun d s => render_struct nm m d = ROk s) ds ss ->
  Forall2 (fun i g => render_info nm m i = ROk g) (map (make_info drop) ts) gi -> Forall2 (fun d g => render_cols nm m d = ROk g) ds gc ->
  for_tables (of_table (gm_types m) drop (spkg_of a)) ts ss gi gc.
Proof.
  intro H. revert ss gi gc. induction H as [|t d ts ds Hd _ IH]; intros ss gi gc Hs Hi Hg; inversion Hs; inversion Hi; inversion Hg; subst; constructor; eauto using of_table_ok.
Qed.

(** Files *)
Lemma same_file_iff a b : same_file a b = true <-> a = b.
Proof. destruct a as [a1 a2], b as [b1 b2]. unfold same_file. cbn [fst snd]. rewrite Bool.andb_true_iff, !beqb_eq. split; [intros [-> ->]; reflexivity | intro E; injection E as -> ->; auto]. Qed.
Lemma fget_fput k j v m : fget j (fput k v m) = if same_file k j then Some v else fget j m.
Proof.
  induction m as [|[i w] m IH]; cbn [fput fget].
  - reflexivity.
  - destruct (same_file i k) eqn:E; cbn [fget].
    + apply same_file_iff in E as ->. destruct (same_file k j); reflexivity.
    + rewrite IH. destruct (same_file i j) eqn:E2; [|reflexivity]. destruct (same_file k j) eqn:E3; [|reflexivity]. apply same_file_iff in E2, E3. subst. rewrite (proj2 (same_file_iff j j) eq_refl) in E. discriminate.
Qed.
(** A step writes nothing but to these files, and only appends to the output. *)
Definition touches (ks : list (bytes * bytes)) (w w' : world) : Prop := (exists e, w_out w' = w_out w ++ e) /\ forall k, ~ In k ks -> fget k (w_fs w') = fget k (w_fs w).
Lemma touches_refl ks w : touches ks w w. Proof. split; [exists []; symmetry; apply app_nil_r | reflexivity]. Qed.
Lemma touches_trans ks w1 w2 w3 : touches ks w1 w2 -> touches ks w2 w3 -> touches ks w1 w3.
Proof. intros ([e1 E1] & F1) ([e2 E2] & F2). split; [exists (e1 ++ e2); rewrite E2, E1, app_assoc; reflexivity | intros k H; rewrite F2, F1 by exact H; reflexivity]. Qed.
Lemma touches_sub ks ks' w w' : (forall k, In k ks -> In k ks') -> touches ks w w' -> touches ks' w w'.
Proof. intros S (E & F). split; [exact E|]. intros k H. apply F. intro X. exact (H (S _ X)). Qed.
Lemma open_touches dir fn w : touches [(dir, fn)] w (open_file dir fn w).
Proof.
  unfold open_file. destruct (is_empty dir); [apply touches_refl|]. split; cbn [w_out w_fs]; [exists []; symmetry; apply app_nil_r|].
  intros k H. rewrite fget_fput. destruct (same_file (dir, fn) k) eqn:E; [|reflexivity]. apply same_file_iff in E as <-. exfalso. apply H. left. reflexivity.
Qed.
Lemma write_touches dir fn f w : touches [(dir, fn)] w (write_file dir fn f w).
Proof.
  unfold write_file. destruct (is_empty dir); split; cbn [w_out w_fs]; try (exists [f]; reflexivity); try (exists []; symmetry; apply app_nil_r); [reflexivity|].
  intros k H. rewrite fget_fput. destruct (same_file (dir, fn) k) eqn:E; [|reflexivity]. apply same_file_iff in E as <-. exfalso. apply H. left. reflexivity.
Qed.
Lemma write_emitted dir fn f w : emitted dir fn w (write_file dir fn f w) f.
Proof.
  unfold emitted, write_file. destruct dir as [|c dir]; cbn [is_empty].
  - left. split; [reflexivity|]. exists [], []. reflexivity.
  - right. split; [discriminate|]. cbn [w_fs]. rewrite fget_fput, (proj2 (same_file_iff _ _) eq_refl). reflexivity.
Qed.
Lemma emitted_after ks dir fn w w1 w2 f : emitted dir fn w w1 f -> touches ks w1 w2 -> (dir <> [] -> ~ In (dir, fn) ks) -> emitted dir fn w w2 f.
Proof.
  intros [(E & pre & post & H)|(E & H)] ((e & F1) & F2) N.
  - left. split; [exact E|]. exists pre, (post ++ e). rewrite F1, H, <- !app_assoc. cbn [app]. reflexivity.
  - right. split; [exact E|]. rewrite F2; [exact H | exact (N E)].
Qed.
Lemma emitted_before dir fn w0 w w1 f : (exists e, w_out w = w_out w0 ++ e) -> emitted dir fn w w1 f -> emitted dir fn w0 w1 f.
Proof.
  intros (e & F1) [(E & pre & post & H)|(E & H)]; [left | right; split; assumption]. split; [exact E|]. exists (e ++ pre), post. rewrite H, F1, <- !app_assoc. reflexivity.
Qed.

Lemma bases_differ s s' : s ++ B "_" ++ model_base <> s' ++ B "_" ++ schema_base.
Proof.
  intro E. assert (F : rev (s ++ B "_" ++ model_base) = rev (s' ++ B "_" ++ schema_base)) by (rewrite E; reflexivity).
  rewrite !rev_app_distr in F. change (rev model_base) with (B "og.neg.ledom") in F. change (rev schema_base) with (B "og.neg.amehcs") in F. discriminate F.
Qed.
Lemma file_names_differ multi s s' : file_name multi s model_base <> file_name multi s' schema_base.
Proof. destruct multi; cbn [file_name]; [apply bases_differ | discriminate]. Qed.
Lemma file_name_inj s s' base : file_name true s base = file_name true s' base -> s = s'.
Proof. cbn [file_name]. rewrite !app_assoc. intro E. apply app_inv_tail in E. apply app_inv_tail in E. exact E. Qed.

(** One schema *)
Definition keys_of (a : gargs) (multi : bool) (s : bytes) : list (bytes * bytes) := [(ga_outm a, file_name multi s model_base); (ga_outs a, file_name multi s schema_base)].
Definition produced (nm : naming) (a : gargs) (m : gmaps) (drop : list bytes) (multi : bool) (w w' : world) (old : list tinfo) (oldd : list tdef) (s : bytes) (ts : list gtab) : Prop :=
  exists ss older gi mv gc0 gc,
    emitted (ga_outm a) (file_name multi s model_base) w w' (GModel (model_pkg a) (negb (beqb (model_pkg a) (schema_pkg a))) ss) /\
    emitted (ga_outs a) (file_name multi s schema_base) w w' (GSchema (schema_pkg a) (older ++ gi) mv (map (fun g => (ti_name (gi_info g), gi_var g)) (older ++ gi)) (gc0 ++ gc)) /\
    Forall2 (fun i g => render_info nm m i = ROk g) old older /\ Forall2 (fun d g => render_cols nm m d = ROk g) oldd gc0 /\
    (exists db, go_name nm (ga_db a) = ROk db /\ mv = db ++ B "Tables") /\
    for_tables (of_table (gm_types m) drop (spkg_of a)) ts ss gi gc /\
    Forall2 (fun i g => render_info nm m i = ROk g) (map (make_info drop) ts) gi /\
    (exists ds, Forall2 (fun t d => make_def nm a m drop s t = ROk d) ts ds /\ Forall2 (fun d x => render_struct nm m d = ROk x) ds ss).
Lemma gen_schema_ok nm fok a m drop multi s ts w infos defs w' acc : gen_schema nm fok a m drop multi s ts w infos defs = ((w', acc), ROk tt) ->
  touches (keys_of a multi s) w w' /\ produced nm a m drop multi w w' infos defs s ts /\
  fst acc = infos ++ map (make_info drop) ts /\ exists ds, snd acc = defs ++ ds /\ Forall2 (fun t d => make_def nm a m drop s t = ROk d) ts ds.
Proof.
  unfold gen_schema. cbv zeta. destruct (each_table nm a m drop s ts infos defs) as [[infos' defs'] [ss| |]] eqn:E; try discriminate.
  destruct (each_table_ok _ _ _ _ _ _ _ _ _ _ E) as (ds & Ea & H1 & H2). injection Ea as -> ->.
  set (mf := file_name multi s model_base). set (sf := file_name multi s schema_base). set (fm := GModel _ _ ss).
  destruct (fok fm) eqn:Em; cbn [negb]; try discriminate.
  set (w1 := open_file (ga_outm a) mf w). set (w2 := write_file (ga_outm a) mf fm w1). set (w3 := open_file (ga_outs a) sf w2).
  destruct (render_schema nm a m (infos ++ map (make_info drop) ts) (defs ++ ds)) as [g| |] eqn:Eg; try discriminate.
  destruct (fok g) eqn:Egf; cbn [negb]; try discriminate. intro X. injection X as <- <-. cbn [fst snd].
  destruct (render_schema_ok _ _ _ _ _ _ Eg) as (gi & mv & en & gc & -> & G1 & G2 & -> & G3).
  apply Forall2_app_inv_l in G1 as (older & own & O1 & O2 & ->). apply Forall2_app_inv_l in G2 as (gc0 & gc1 & C1 & C2 & ->).
  set (fs := GSchema _ _ _ _ _) in *. set (w4 := write_file (ga_outs a) sf fs w3).
  assert (T1 : touches [(ga_outm a, mf)] w w1) by apply open_touches. assert (T2 : touches [(ga_outm a, mf)] w1 w2) by apply write_touches.
  assert (T3 : touches [(ga_outs a, sf)] w2 w3) by apply open_touches. assert (T4 : touches [(ga_outs a, sf)] w3 w4) by apply write_touches.
  assert (ND : forall d, (d, mf) <> (ga_outs a, sf)). { intros d X. injection X as _ X. exact (file_names_differ multi s s X). }
  pose proof (touches_trans _ _ _ _ T1 T2) as T12. pose proof (touches_trans _ _ _ _ T3 T4) as T34.
  split; [|split; [|split; [reflexivity|exists ds; split; [reflexivity|exact H1]]]].
  - apply (touches_trans (keys_of a multi s) w w2 w4).
    + apply (touches_sub [(ga_outm a, mf)]); [intros k [<-|[]]; left; reflexivity | exact T12].
    + apply (touches_sub [(ga_outs a, sf)]); [intros k [<-|[]]; right; left; reflexivity | exact T34].
  - exists ss, older, own, mv, gc0, gc1. split.
    { apply (emitted_after [(ga_outs a, sf)] _ _ _ w2); [|exact T34|].
      - apply (emitted_before _ _ w w1); [exact (proj1 T1)|]. apply write_emitted.
      - intros _ [X|[]]. exact (ND _ (eq_sym X)). }
    split. { apply (emitted_before _ _ w w2); [exact (proj1 T12)|]. apply (emitted_before _ _ w2 w3); [exact (proj1 T3)|]. apply write_emitted. }
    split; [exact O1|]. split; [exact C1|]. split; [exact G3|]. split; [eapply tables_match; eassumption|]. split; [exact O2|]. exists ds. split; assumption.
Qed.

(** All schemas *)
Lemma each_schema_ok nm fok a m drop multi groups : forall ord w infos defs w', (multi = true \/ (length ord <= 1)%nat) -> NoDup ord ->
  each_schema nm fok a m drop multi groups ord w infos defs = (w', ROk tt) ->
  touches (flat_map (keys_of a multi) ord) w w' /\
  forall o1 s o2, ord = o1 ++ s :: o2 -> let tab x := match mget x groups with Some l => l | None => [] end in
    exists od, produced nm a m drop multi w w' (infos ++ flat_map (fun x => map (make_info drop) (tab x)) o1) (defs ++ od) s (tab s) /\
      Forall2 (fun p d => make_def nm a m drop (fst p) (snd p) = ROk d) (flat_map (fun x => map (pair x) (tab x)) o1) od.
Proof.
  induction ord as [|s ord IH]; intros w infos defs w' Hm ND H; cbn [each_schema] in H.
  - injection H as <-. split; [apply touches_refl|]. intros o1 s o2 E. destruct o1; discriminate.
  - set (tab := fun x => match mget x groups with Some l => l | None => [] end) in *. change (match mget s groups with Some l => l | None => [] end) with (tab s) in H.
    destruct (gen_schema nm fok a m drop multi s (tab s) w infos defs) as [[w1 [infos1 defs1]] [[]| |]] eqn:E; try discriminate.
    destruct (gen_schema_ok _ _ _ _ _ _ _ _ _ _ _ _ _ E) as (T & P & Ei & ds & Ed & Hds). cbn [fst snd] in Ei, Ed. subst infos1 defs1.
    inversion ND as [|? ? Hn ND']; subst.
    destruct (IH w1 _ _ w' ltac:(destruct Hm as [Hm|Hm]; [left; exact Hm | right; cbn [length] in Hm; lia]) ND' H) as (T' & P').
    cbn [flat_map]. split.
    { apply (touches_trans _ _ w1); eapply touches_sub; try eassumption; intros k Hk; apply in_or_app; [left|right]; exact Hk. }
    intros o1 s' o2 Eo. cbv zeta. destruct o1 as [|x o1]; cbn [app] in Eo; injection Eo as -> ->.
    + exists []. cbn [flat_map]. rewrite !app_nil_r. split; [|constructor].
      destruct P as (ss & older & gi & mv & gc0 & gc & P1 & P2 & P3). exists ss, older, gi, mv, gc0, gc.
      assert (K : forall dir b, dir <> [] -> (b = model_base \/ b = schema_base) -> ~ In (dir, file_name multi s' b) (flat_map (keys_of a multi) o2)).
      { intros dir b _ Hb Hin. apply in_flat_map in Hin as (x & Hx & Hin). destruct Hm as [->|Hm]; [|destruct o2; [destruct Hx|cbn [length] in Hm; lia]].
        assert (x <> s') by (intros ->; contradiction).
        destruct Hin as [Hin|[Hin|[]]]; apply (f_equal snd) in Hin; cbn [snd] in Hin; destruct Hb as [-> | ->].
        - apply file_name_inj in Hin. contradiction.
        - exact (file_names_differ _ _ _ Hin).
        - exact (file_names_differ _ _ _ (eq_sym Hin)).
        - apply file_name_inj in Hin. contradiction. }
      split; [|split; [|exact P3]]; eapply emitted_after; try eassumption; intro Hd; apply K; auto.
    + destruct (P' o1 s' o2 eq_refl) as (od & (ss & older & gi & mv & gc0 & gc & P1 & P2 & P3) & Hod). exists (ds ++ od). cbn [flat_map]. rewrite <- !app_assoc in *. split.
      * exists ss, older, gi, mv, gc0, gc. split; [|split; [|exact P3]]; (eapply emitted_before; [|eassumption]); exact (proj1 T).
      * apply Forall2_app; [|exact Hod]. clear - Hds. induction Hds; cbn [map]; constructor; assumption.
Qed.

(** Grouping *)
Lemma mget_by_schema ts : forall m s, mget s (fold_left add_table ts m) = match tables_of s ts with [] => mget s m | l => Some (match mget s m with Some x => x | None => [] end ++ l) end.
Proof.
  induction ts as [|t ts IH]; intros m s; cbn [fold_left tables_of filter]; [reflexivity|]. rewrite IH. unfold add_table at 1 2. rewrite !mget_mput.
  destruct (beqb_spec (g_schema t) s) as [E|N].
  - rewrite E. fold (tables_of s ts). destruct (tables_of s ts); [reflexivity|]. rewrite <- app_assoc. reflexivity.
  - fold (tables_of s ts). reflexivity.
Qed.
Lemma by_schema_get ts s : (match mget s (by_schema ts) with Some l => l | None => [] end) = tables_of s ts.
Proof. unfold by_schema. rewrite mget_by_schema. cbn [mget]. destruct (tables_of s ts); reflexivity. Qed.
Lemma tables_of_in ts s : tables_of s ts <> [] <-> In s (map g_schema ts).
Proof.
  rewrite in_map_iff. split.
  - intro H. destruct (tables_of s ts) as [|t l] eqn:E; [congruence|]. assert (I : In t (tables_of s ts)) by (rewrite E; left; reflexivity). apply filter_In in I as [I E2]. apply beqb_eq in E2. exists t. auto.
  - intros (t & E & I) X. assert (J : In t (tables_of s ts)) by (apply filter_In; split; [exact I | rewrite E; apply beqb_refl]). rewrite X in J. exact J.
Qed.
Lemma by_schema_keys ts s : In s (map fst (by_schema ts)) <-> In s (map g_schema ts).
Proof. rewrite <- mget_keys, <- tables_of_in. unfold by_schema. rewrite mget_by_schema. cbn [mget]. destruct (tables_of s ts); split; congruence. Qed.
Lemma by_schema_nodup ts : NoDup (map fst (by_schema ts)).
Proof.
  unfold by_schema. assert (G : forall m, NoDup (map fst m) -> NoDup (map fst (fold_left add_table ts m))); [|apply G; constructor].
  induction ts as [|t ts IH]; intros m H; cbn [fold_left]; [exact H|]. apply IH. unfold add_table. apply mput_keys. exact H.
Qed.
Lemma multi_several ts : (1 <? length (by_schema ts))%nat = true <-> several ts.
Proof.
  rewrite Nat.ltb_lt. rewrite <- (map_length fst). pose proof (by_schema_nodup ts) as ND. pose proof (by_schema_keys ts) as K. unfold several. split.
  - intro L. destruct (map fst (by_schema ts)) as [|x [|y l]]; cbn [length] in L; try lia. inversion ND as [|? ? N _]; subst.
    assert (Hx : In x (map g_schema ts)) by (apply K; left; reflexivity). assert (Hy : In y (map g_schema ts)) by (apply K; right; left; reflexivity).
    apply in_map_iff in Hx as (a & Ea & Ha). apply in_map_iff in Hy as (b & Eb & Hb). exists a, b. split; [exact Ha|]. split; [exact Hb|]. intro X. apply N. left. congruence.
  - intros (a & b & Ha & Hb & N). assert (Hx : In (g_schema a) (map fst (by_schema ts))) by (apply K, in_map, Ha). assert (Hy : In (g_schema b) (map fst (by_schema ts))) by (apply K, in_map, Hb).
    destruct (map fst (by_schema ts)) as [|x [|y l]]; cbn [length]; [destruct Hx | | lia]. destruct Hx as [Y|[]]. destruct Hy as [X|[]]. exfalso. apply N. congruence.
Qed.
Lemma order_multi ord ts : schema_order ord ts -> (1 <? length (by_schema ts))%nat = true \/ (length ord <= 1)%nat.
Proof.
  intros [ND H]. destruct (1 <? length (by_schema ts))%nat eqn:E; [left; reflexivity|right]. apply Nat.ltb_ge in E. rewrite <- (map_length fst) in E.
  transitivity (length (map fst (by_schema ts))); [|exact E]. apply NoDup_incl_length; [exact ND|]. intros s Hs. apply by_schema_keys, H, Hs.
Qed.
Lemma named_file ts s base : named ts s base (file_name (1 <? length (by_schema ts))%nat s base).
Proof.
  unfold named. destruct (1 <? length (by_schema ts))%nat eqn:E.
  - left. split; [apply multi_several; exact E | reflexivity].
  - right. split; [rewrite <- multi_several, E; discriminate | reflexivity].
Qed.
(** The package variables and the columns to drop that a run works with. *)
Definition run_maps (a : gargs) (m : gmaps) : gmaps := match ga_def a with Some (ROk o) => load m o | _ => m end.
Definition run_drop (a : gargs) : list bytes := match ga_def a with Some (ROk o) => ov_drop o | _ => [] end.
Lemma generate_ok nm fok a ts ord m w m' w' : generate nm fok a ts ord m w = ((m', w'), ROk tt) ->
  m' = run_maps a m /\ each_schema nm fok a m' (run_drop a) (1 <? length (by_schema ts))%nat (by_schema ts) ord w [] [] = (w', ROk tt).
Proof.
  unfold generate, run_maps, run_drop. destruct (ga_def a) as [[o| |]|]; try discriminate; cbv zeta;
  match goal with |- (let '(_, _) := ?X in _) = _ -> _ => destruct X as [w1 r] eqn:E end; intro H; injection H as <- <- ->; split; [reflexivity|exact E|reflexivity|exact E].
Qed.
(** A failure leaves the model file that was opened empty. *)
Lemma each_table_fails nm a m drop sn ts infos defs t c : In t ts -> In c (filter_columns drop (g_cols t)) -> to_go_type (gm_types m) c = RPanic ->
  forall x ss, each_table nm a m drop sn ts infos defs <> (x, ROk ss).
Proof.
  intros Ht Hc Hp x ss E. destruct (each_table_ok _ _ _ _ _ _ _ _ _ _ E) as (ds & _ & H1 & H2). clear E. revert ss H2 Ht; clear - H1 Hc Hp. induction H1 as [|t' d ts ds Hd _ IH]; intros ss H2 Ht; [destruct Ht|].
  inversion H2 as [|? s ? ss' Hs Hss]; subst. destruct Ht as [->|Ht]; [|exact (IH _ Hss Ht)].
  unfold make_def in Hd. cbv zeta in Hd. apply obind_ok in Hd as (tsn & _ & Hd). injection Hd as <-. unfold render_struct in Hs. apply (proj1 (in_template_ok _ _)) in Hs. cbn [td_cols] in Hs.
  apply obind_ok in Hs as (fs & Hfs & _). apply (proj1 (omap_ok _ _ _)) in Hfs. clear - Hc Hp Hfs. induction Hfs as [|c' f l fs Hf _ IH]; [exact Hc|]. destruct Hc as [->|Hc]; [|exact (IH Hc)].
  unfold render_field in Hf. apply obind_ok in Hf as (n & _ & Hf). rewrite Hp in Hf. discriminate.
Qed.
Lemma schema_split (s : bytes) ord : In s ord -> exists o1 o2, ord = o1 ++ s :: o2.
Proof. apply in_split. Qed.
