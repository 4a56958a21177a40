(** Facts about the result sets opened by listings. *)
From Verif Require Import GoBase GoBaseFacts TypeModel ParamModel SchemaModel SchemaTrace.
From Coq Require Import Lia.
Open Scope nat_scope.

Lemma held_app a : forall n b, held n (a ++ b) = held (held n a) b.
Proof. induction a as [|[] a IH]; intros n b; cbn [held app]; auto. Qed.
Lemma peak_ge l : forall n, n <= peak n l.
Proof. induction l as [|[] l IH]; intros n; cbn [peak]; [lia|specialize (IH (S n)); lia|lia]. Qed.
Lemma peak_app a : forall n b, peak n (a ++ b) = Nat.max (peak n a) (peak (held n a) b).
Proof.
  induction a as [|[] a IH]; intros n b; cbn [peak held app]; [|apply IH|rewrite IH; lia].
  pose proof (peak_ge b n). lia.
Qed.

Definition fits (k : nat) (l : list ev) : Prop := forall n, n <= held n l <= n + k /\ peak n l <= n + k.
Definition balanced (l : list ev) : Prop := forall n, held n l = n.
Lemma fits_nil k : fits k []. Proof. intros n. cbn. lia. Qed.
Lemma balanced_nil : balanced []. Proof. intros n. reflexivity. Qed.
Lemma fits_app k a b : fits k a -> balanced a -> fits k b -> fits k (a ++ b).
Proof. intros A B C n. rewrite held_app, peak_app, (B n). specialize (A n). specialize (C n). lia. Qed.
Lemma balanced_app a b : balanced a -> balanced b -> balanced (a ++ b).
Proof. intros A B n. rewrite held_app, A. apply B. Qed.
Lemma fits_mono k k' a : k <= k' -> fits k a -> fits k' a.
Proof. intros L H n. specialize (H n). lia. Qed.

Lemma loop_fits {S0 R} (f : S0 -> R -> S0 * outcome unit) ev1 k
  (Hf : forall st r, fits k (ev1 st r)) (Hb : forall st r, (exists u, snd (f st r) = ROk u) -> balanced (ev1 st r)) :
  forall rows st n,
  (match snd (each_row f st rows) with ROk _ => held (S n) (loop_events f ev1 st rows) = n
   | _ => S n <= held (S n) (loop_events f ev1 st rows) <= S n + k end) /\
  peak (S n) (loop_events f ev1 st rows) <= S n + k.
Proof.
  induction rows as [|[r|e|] rest IH]; intros st n; cbn [each_row loop_events]; [cbn [snd held peak]; split; [reflexivity|lia]| |cbn [snd held peak]; lia|cbn [snd held peak]; lia].
  pose proof (Hf st r (S n)) as F. pose proof (Hb st r) as Bl. destruct (f st r) as [st' [u|e|]] eqn:E.
  - rewrite held_app, peak_app, !(Bl (ex_intro _ u eq_refl) (S n)). specialize (IH st' n). cbn [snd] in *. destruct (snd (each_row f st' rest)).
    all: lia.
  - rewrite app_nil_r. cbn [snd]. lia.
  - rewrite app_nil_r. cbn [snd]. lia.
Qed.
Lemma query_fits {S0 R} (f : S0 -> R -> S0 * outcome unit) ev1 k st q
  (Hf : forall st r, fits k (ev1 st r)) (Hb : forall st r, (exists u, snd (f st r) = ROk u) -> balanced (ev1 st r)) :
  fits (S k) (query_events f ev1 st q).
Proof.
  intros n. destruct q as [src|e]; cbn [query_events]; [|cbn; lia]. cbn [held peak].
  pose proof (loop_fits f ev1 k Hf Hb (src_rows src) st n) as L. destruct (snd (each_row f st (src_rows src))); lia.
Qed.
Lemma query_balanced {S0 R} (f : S0 -> R -> S0 * outcome unit) ev1 k st q u
  (Hf : forall st r, fits k (ev1 st r)) (Hb : forall st r, (exists u, snd (f st r) = ROk u) -> balanced (ev1 st r)) :
  snd (run_query f st q) = ROk u -> balanced (query_events f ev1 st q).
Proof.
  intros H n. destruct q as [src|e]; cbn [query_events run_query] in *; [|discriminate]. cbn [held].
  pose proof (loop_fits f ev1 k Hf Hb (src_rows src) st n) as L. destruct (each_row f st (src_rows src)) as [st' [v|e|]]; cbn [snd] in *; [lia|discriminate|discriminate].
Qed.
Lemma no_fits {S0 R} : forall (st : S0) (r : R), fits 0 (no_events st r). Proof. intros. apply fits_nil. Qed.
Lemma no_balanced {S0 R} (P : S0 -> R -> Prop) : forall st r, P st r -> balanced (no_events st r). Proof. intros. apply balanced_nil. Qed.

Lemma columns_fits cat st s t : fits 1 (columns_events cat st s t).
Proof. apply (query_fits _ _ 0); [apply no_fits|intros; apply balanced_nil]. Qed.
Lemma columns_balanced cat st s t cc : snd (read_columns cat st s t) = ROk cc -> balanced (columns_events cat st s t).
Proof.
  intros H. unfold read_columns in H. unfold columns_events.
  destruct (run_query (column_row s t) (st, []) (cat_columns cat s t)) as [[st' ids] [u|e|]] eqn:E; try discriminate.
  eapply (query_balanced _ _ 0 _ _ u); [apply no_fits|intros; apply balanced_nil|]. rewrite E. reflexivity.
Qed.
Lemma indexes_fits cat s t : fits 1 (indexes_events cat s t).
Proof. apply (query_fits _ _ 0); [apply no_fits|intros; apply balanced_nil]. Qed.
Lemma indexes_balanced cat s t ii : read_indexes cat s t = ROk ii -> balanced (indexes_events cat s t).
Proof.
  intros H. unfold read_indexes in H. unfold indexes_events.
  destruct (run_query (fun ii r => (ii ++ [make_index r], ROk tt)) [] (cat_indexes cat s t)) as [x [u|e|]] eqn:E; try discriminate.
  eapply (query_balanced _ _ 0 _ _ u); [apply no_fits|intros; apply balanced_nil|]. rewrite E. reflexivity.
Qed.
Lemma table_fits cat schemas tables x r : fits 1 (table_events cat schemas tables x r).
Proof.
  unfold table_events. destruct (negb (wanted schemas tables (tr_schema r) (tr_name r))); [apply fits_nil|].
  destruct (snd (read_columns cat (fst x) (tr_schema r) (tr_name r))) eqn:E; [|rewrite app_nil_r; apply columns_fits|rewrite app_nil_r; apply columns_fits].
  apply fits_app; [apply columns_fits|eapply columns_balanced; exact E|apply indexes_fits].
Qed.
Lemma table_balanced cat schemas tables x r : (exists u, snd (table_row cat schemas tables x r) = ROk u) -> balanced (table_events cat schemas tables x r).
Proof.
  intros [u H]. unfold table_events. unfold table_row in H. destruct x as [st ts]. destruct (negb (wanted schemas tables (tr_schema r) (tr_name r))); [apply balanced_nil|].
  cbn [fst]. destruct (read_columns cat st (tr_schema r) (tr_name r)) as [st1 [cc|e|]] eqn:E; try discriminate. cbn [snd].
  destruct (read_indexes cat (tr_schema r) (tr_name r)) as [ii|e|] eqn:E2; try discriminate.
  apply balanced_app; [eapply columns_balanced; rewrite E; reflexivity|eapply indexes_balanced; eassumption].
Qed.
Lemma list_tables_fits cat st schemas tables : fits 2 (list_tables_events cat st schemas tables).
Proof. apply query_fits; [apply table_fits|apply table_balanced]. Qed.
Lemma list_tables_balanced cat st schemas tables ts : snd (list_tables_only cat st schemas tables) = ROk ts -> balanced (list_tables_events cat st schemas tables).
Proof.
  intros H. unfold list_tables_only in H. destruct (run_query (table_row cat schemas tables) (st, []) (cat_tables cat)) as [[st' x] [u|e|]] eqn:E; try discriminate.
  eapply (query_balanced _ _ 1 _ _ u); [apply table_fits|apply table_balanced|rewrite E; reflexivity].
Qed.
Lemma list_fks_fits cat st schemas tables : fits 1 (list_fks_events cat st schemas tables).
Proof. apply (query_fits _ _ 0); [apply no_fits|intros; apply balanced_nil]. Qed.
Lemma list_fks_balanced cat st schemas tables ks : snd (list_fks cat st schemas tables) = ROk ks -> balanced (list_fks_events cat st schemas tables).
Proof.
  intros H. unfold list_fks in H. destruct (run_query (fk_row schemas tables) (st, []) (cat_fks cat)) as [[st' x] [u|e|]] eqn:E; try discriminate.
  eapply (query_balanced _ _ 0 _ _ u); [apply no_fits|intros; apply balanced_nil|rewrite E; reflexivity].
Qed.
Lemma list_views_fits cat st schemas tables : fits 1 (list_views_events cat st schemas tables).
Proof. apply (query_fits _ _ 0); [apply no_fits|intros; apply balanced_nil]. Qed.
Lemma list_views_balanced cat st schemas tables vord ts : snd (list_views cat st schemas tables vord) = ROk ts -> balanced (list_views_events cat st schemas tables).
Proof.
  intros H. unfold list_views in H. destruct (run_query (view_row schemas tables) (st, []) (cat_views cat)) as [[st' x] [u|e|]] eqn:E; try discriminate.
  eapply (query_balanced _ _ 0 _ _ u); [apply no_fits|intros; apply balanced_nil|rewrite E; reflexivity].
Qed.

Lemma each_col_fits rec rec_ev (Hf : forall st s t, fits 1 (rec_ev st s t)) (Hb : forall st s t st' u, rec st s t = Some (st', ROk u) -> balanced (rec_ev st s t)) :
  forall ids st, fits 1 (each_col_events rec rec_ev st ids) /\ (forall st' u, each_col rec st ids = Some (st', ROk u) -> balanced (each_col_events rec rec_ev st ids)).
Proof.
  induction ids as [|id r IH]; intros st; cbn [each_col each_col_events]; [split; [apply fits_nil|intros; apply balanced_nil]|].
  destruct (nth_error (p_heap st) id) as [c|]; [|split; [apply fits_nil|discriminate]].
  destruct (mget (c_fqn c) (p_fks st)) as [k|]; [|apply IH]. cbn zeta.
  set (st1 := set_heap _ _). pose proof (Hf st1 (k_rschema k) (k_rtable k)) as F.
  destruct (rec st1 (k_rschema k) (k_rtable k)) as [[st' [u|e|]]|] eqn:E; [|rewrite app_nil_r; split; [assumption|intros ? ? X; injection X as _ X; discriminate]|rewrite app_nil_r; split; [assumption|intros ? ? X; injection X as _ X; discriminate]|rewrite app_nil_r; split; [assumption|discriminate]].
  pose proof (Hb _ _ _ _ _ E) as Bl. destruct (IH st') as [I1 I2]. split; [apply fits_app; assumption|]. intros s2 u2 X. apply balanced_app; [assumption|eapply I2; exact X].
Qed.
Lemma discover_table_fits cat : forall fuel st s t, fits 1 (discover_table_events fuel cat st s t) /\
  (forall st' u, discover_table fuel cat st s t = Some (st', ROk u) -> balanced (discover_table_events fuel cat st s t)).
Proof.
  induction fuel as [|f IH]; intros st s t; cbn [discover_table discover_table_events]; [split; [apply fits_nil|discriminate]|].
  destruct (mget (fqn2 s t) (p_tabs st)); [split; [apply fits_nil|intros; apply balanced_nil]|].
  pose proof (columns_fits cat st s t) as F. pose proof (columns_balanced cat st s t) as Bl.
  destruct (read_columns cat st s t) as [st1 [cc|e|]]; [|rewrite app_nil_r; split; [assumption|intros ? ? X; injection X as _ X; discriminate]|rewrite app_nil_r; split; [assumption|intros ? ? X; injection X as _ X; discriminate]].
  specialize (Bl cc eq_refl).
  destruct (each_col_fits (discover_table f cat) (discover_table_events f cat)) with (ids := cc) (st := put_table st1 (mkTab s t [] false cc [] None (fqn2 s t))) as [E1 E2].
  - intros; apply IH.
  - intros; eapply IH; eassumption.
  - split; [apply fits_app; assumption|]. intros st' u X. apply balanced_app; [assumption|eapply E2; exact X].
Qed.
Lemma each_key_fits fuel cat : forall ord st, fits 1 (each_key_events fuel cat st ord) /\
  (forall st' u, each_key fuel cat st ord = Some (st', ROk u) -> balanced (each_key_events fuel cat st ord)).
Proof.
  induction ord as [|n r IH]; intros st; cbn [each_key each_key_events]; [split; [apply fits_nil|intros; apply balanced_nil]|].
  destruct (mget n (p_cols st)) as [id|]; [|apply IH]. destruct (mget n (p_fks st)) as [k|]; [|apply IH]. cbn zeta.
  set (st1 := set_heap _ _). destruct (discover_table_fits cat fuel st1 (k_rschema k) (k_rtable k)) as [F Bl].
  destruct (discover_table fuel cat st1 (k_rschema k) (k_rtable k)) as [[st' [u|e|]]|]; [|rewrite app_nil_r; split; [assumption|intros ? ? X; injection X as _ X; discriminate]|rewrite app_nil_r; split; [assumption|intros ? ? X; injection X as _ X; discriminate]|rewrite app_nil_r; split; [assumption|discriminate]].
  specialize (Bl st' u eq_refl). destruct (IH st') as [I1 I2]. split; [apply fits_app; assumption|]. intros s2 u2 X. apply balanced_app; [assumption|eapply I2; exact X].
Qed.
Lemma discover_fits fuel cat st ord tord : fits 1 (discover_events fuel cat st ord) /\
  (forall st' ts, discover fuel cat st ord tord = Some (st', ROk ts) -> balanced (discover_events fuel cat st ord)).
Proof.
  unfold discover, discover_events. pose proof (list_fks_fits cat st [] []) as F. pose proof (list_fks_balanced cat st [] []) as Bl.
  destruct (list_fks cat st [] []) as [st1 [ks|e|]]; [|rewrite app_nil_r; split; [assumption|intros ? ? X; injection X as _ X; discriminate]|rewrite app_nil_r; split; [assumption|intros ? ? X; injection X as _ X; discriminate]].
  specialize (Bl ks eq_refl). destruct (each_key_fits fuel cat ord st1) as [E1 E2]. split; [apply fits_app; assumption|].
  intros st' ts X. apply balanced_app; [assumption|]. destruct (each_key fuel cat st1 ord) as [[st2 [u|e|]]|]; try discriminate. eapply E2. reflexivity.
Qed.
Lemma list_tables_deps_fits fuel cat st schemas tables ord tord : fits 2 (list_tables_deps_events fuel cat st schemas tables ord) /\
  (forall st' ts, list_tables_deps fuel cat st schemas tables ord tord = Some (st', ROk ts) -> balanced (list_tables_deps_events fuel cat st schemas tables ord)).
Proof.
  unfold list_tables_deps, list_tables_deps_events. pose proof (list_tables_fits cat st schemas tables) as F. pose proof (list_tables_balanced cat st schemas tables) as Bl.
  destruct (list_tables_only cat st schemas tables) as [st1 [ts|e|]]; [|rewrite app_nil_r; split; [assumption|intros ? ? X; injection X as _ X; discriminate]|rewrite app_nil_r; split; [assumption|intros ? ? X; injection X as _ X; discriminate]].
  specialize (Bl ts eq_refl). destruct (discover_fits fuel cat st1 ord tord) as [E1 E2]. split; [apply fits_app; [assumption|assumption|eapply fits_mono; [|exact E1]; lia]|].
  intros st' ts' X. apply balanced_app; [assumption|]. destruct (discover fuel cat st1 ord tord) as [[st2 [u|e|]]|]; try discriminate. eapply E2. reflexivity.
Qed.

(** Loops that are left early. *)
Lemma loop_scan_fail {S0 R} (f : S0 -> R -> S0 * outcome unit) (Hf : forall st r, exists u, snd (f st r) = ROk u) bad rest :
  (forall r, bad <> SRow r) -> forall rows st, (exists x, each_row f st (map SRow rows ++ bad :: rest) = (x, match bad with SFail e => RErr e | _ => RPanic end)) /\
  loop_events f no_events st (map SRow rows ++ bad :: rest) = [].
Proof.
  intros Hbad. induction rows as [|r rows IH]; intros st; cbn [map app each_row loop_events].
  - destruct bad as [r|e|]; [exfalso; eapply Hbad; reflexivity| |]; split; eauto.
  - destruct (Hf st r) as [u Hu]. destruct (f st r) as [st' o]. cbn [snd] in Hu. subst o. unfold no_events at 1. cbn [app]. apply IH.
Qed.
