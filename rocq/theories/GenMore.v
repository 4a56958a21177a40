(** Failing runs, package variables, end-to-end generation. *)
From Verif Require Import GoBase GoBaseFacts TypeModel TypeSpec TypeProofs ParamModel SchemaModel SchemaSpec SchemaProofs SchemaGraph SchemaDeps SchemaMore GenModel GenSpec GenTypes GenProofs.
From Coq Require Import Permutation.
Open Scope Z_scope.

Lemma gen_schema_touches nm fok a m drop multi s ts w infos defs w' acc r : gen_schema nm fok a m drop multi s ts w infos defs = ((w', acc), r) -> touches (keys_of a multi s) w w'.
Proof.
  unfold gen_schema. cbv zeta. set (mf := file_name multi s model_base). set (sf := file_name multi s schema_base).
  assert (M : forall x y, touches [(ga_outm a, mf)] x y -> touches (keys_of a multi s) x y). { intros x y. apply touches_sub. intros k [<-|[]]. left. reflexivity. }
  assert (S : forall x y, touches [(ga_outs a, sf)] x y -> touches (keys_of a multi s) x y). { intros x y. apply touches_sub. intros k [<-|[]]. right. left. reflexivity. }
  destruct (each_table nm a m drop s ts infos defs) as [[i1 d1] [ss| |]].
  - destruct (negb (fok _)). { intro X. injection X as <- _ _. apply M, open_touches. }
    destruct (render_schema nm a m i1 d1) as [g| |].
    + destruct (negb (fok g)); intro X; injection X as <- _ _.
      * eapply touches_trans; [apply M, open_touches|]. eapply touches_trans; [apply M, write_touches|]. apply S, open_touches.
      * eapply touches_trans; [apply M, open_touches|]. eapply touches_trans; [apply M, write_touches|]. eapply touches_trans; [apply S, open_touches|]. apply S, write_touches.
    + intro X; injection X as <- _ _. eapply touches_trans; [apply M, open_touches|]. eapply touches_trans; [apply M, write_touches|]. apply S, open_touches.
    + intro X; injection X as <- _ _. eapply touches_trans; [apply M, open_touches|]. eapply touches_trans; [apply M, write_touches|]. apply S, open_touches.
  - intro X. injection X as <- _ _. apply M, open_touches.
  - intro X. injection X as <- _ _. apply M, open_touches.
Qed.
Lemma each_schema_touches nm fok a m drop multi groups : forall ord w infos defs w' r, each_schema nm fok a m drop multi groups ord w infos defs = (w', r) -> touches (flat_map (keys_of a multi) ord) w w'.
Proof.
  induction ord as [|s ord IH]; intros w infos defs w' r; cbn [each_schema flat_map].
  - intro X. injection X as <- _. apply touches_refl.
  - destruct (gen_schema _ _ _ _ _ _ _ _ _ _ _) as [[w1 [i1 d1]] r1] eqn:E. pose proof (gen_schema_touches _ _ _ _ _ _ _ _ _ _ _ _ _ _ E) as T.
    assert (T1 : touches (keys_of a multi s ++ flat_map (keys_of a multi) ord) w w1) by (eapply touches_sub; [|exact T]; intros k Hk; apply in_or_app; left; exact Hk).
    destruct r1 as [[]| |].
    + intro X. apply IH in X. eapply touches_trans; [exact T1|]. eapply touches_sub; [|exact X]. intros k Hk. apply in_or_app. right. exact Hk.
    + intro X. injection X as <- _. exact T1.
    + intro X. injection X as <- _. exact T1.
Qed.
Lemma open_fget dir fn w : dir <> [] -> fget (dir, fn) (w_fs (open_file dir fn w)) = Some GEmpty.
Proof. intro H. unfold open_file. destruct dir; [congruence|]. cbn [is_empty w_fs]. rewrite fget_fput, (proj2 (same_file_iff _ _) eq_refl). reflexivity. Qed.
Lemma gen_schema_fails nm fok a m drop multi s ts w infos defs t c : In t ts -> In c (filter_columns drop (g_cols t)) -> to_go_type (gm_types m) c = RPanic -> ga_outm a <> [] ->
  exists w' acc r, gen_schema nm fok a m drop multi s ts w infos defs = ((w', acc), r) /\ r <> ROk tt /\ fget (ga_outm a, file_name multi s model_base) (w_fs w') = Some GEmpty.
Proof.
  intros Ht Hc Hp Hne. unfold gen_schema. cbv zeta. pose proof (each_table_fails nm a m drop s ts infos defs t c Ht Hc Hp) as F.
  destruct (each_table nm a m drop s ts infos defs) as [[i1 d1] [ss|e|]]; [exfalso; exact (F _ _ eq_refl)| |]; eexists _, _, _; (split; [reflexivity|]); (split; [discriminate|]); apply open_fget; exact Hne.
Qed.
Lemma generate_unfold nm fok a ts ord m w : (forall e, ga_def a <> Some (RErr e)) -> ga_def a <> Some RPanic ->
  generate nm fok a ts ord m w =
  ((run_maps a m, fst (each_schema nm fok a (run_maps a m) (run_drop a) (1 <? length (by_schema ts))%nat (by_schema ts) ord w [] [])),
   snd (each_schema nm fok a (run_maps a m) (run_drop a) (1 <? length (by_schema ts))%nat (by_schema ts) ord w [] [])).
Proof.
  intros H1 H2. unfold generate, run_maps, run_drop. destruct (ga_def a) as [[o|e|]|]; [|exfalso; exact (H1 e eq_refl)|congruence|]; cbv zeta; destruct (each_schema _ _ _ _ _ _ _ _ _ _ _); reflexivity.
Qed.

Lemma merge_map_get l : NoDup (map fst l) -> forall m k, mget k (merge_map l m) = match mget k l with Some v => Some v | None => mget k m end.
Proof.
  unfold merge_map. induction l as [|[j v] l IH]; intros ND m k; cbn [fold_left mget fst snd]; [reflexivity|]. inversion ND as [|? ? N ND']; subst. rewrite (IH ND'), mget_mput.
  destruct (beqb_spec j k) as [->|E]; [|reflexivity]. destruct (mget k l) as [x|] eqn:El; [|reflexivity]. exfalso. apply N. apply mget_in in El. change k with (fst (k, x)). apply in_map. exact El.
Qed.
Lemma mget_perm {A} (l l' : list (bytes * A)) k : Permutation l l' -> NoDup (map fst l) -> mget k l = mget k l'.
Proof.
  induction 1 as [|[j v] l l' _ IH|[j v] [j' v'] l|l l' l'' H1 IH1 H2 IH2]; intro ND; cbn [mget].
  - reflexivity.
  - inversion ND; subst. rewrite IH by assumption. reflexivity.
  - destruct (beqb_spec j' k) as [->|E]; [|reflexivity]. destruct (beqb_spec j k) as [->|E]; [|reflexivity]. inversion ND as [|? ? N _]; subst. exfalso. apply N. left. reflexivity.
  - rewrite IH1 by assumption. apply IH2. eapply Permutation_NoDup; [|exact ND]. apply Permutation_map. exact H1.
Qed.

(** What the generator reads of a discovered table *)
Lemma resolve_expected h t st s n ty cs ii pk fq : see st t = mkSeen s n ty false fq (map Some cs) ii pk -> h = p_heap st ->
  g_schema (resolve h t) = s /\ g_name (resolve h t) = n /\ g_cols (resolve h t) = cs /\ g_idx (resolve h t) = ii /\ g_fqn (resolve h t) = fq.
Proof.
  intros E ->. unfold see, seen_columns in E. injection E as E1 E2 _ _ E3 E4 E5 _. cbn [resolve g_schema g_name g_cols g_idx g_fqn]. repeat split; try assumption.
  clear - E4. revert cs E4. generalize (t_cols t) as l. induction l as [|x l IH]; intros [|c cs] E; cbn [map] in E; try discriminate; [reflexivity|]. injection E as E1 E2. cbn [flat_map]. rewrite E1. cbn [app]. f_equal. exact (IH _ E2).
Qed.
