(** Proofs on the catalog queries. *)
From Verif Require Import GoBase GoBaseFacts TypeModel ParamModel SchemaModel SchemaSpec CatalogModel CatalogSpec.
From Coq Require Import Permutation Lia.
Open Scope Z_scope.

(** ** Loops *)
Lemma flat_map_in_ext {A C} (f g : A -> list C) l : (forall x, In x l -> f x = g x) -> flat_map f l = flat_map g l.
Proof. induction l as [|x l IH]; intros H; cbn [flat_map]; [reflexivity|]. rewrite (H x (or_introl eq_refl)), IH; [reflexivity|]. intros y Hy. apply H. right. exact Hy. Qed.
Lemma flat_map_nil {A C} (f : A -> list C) l : (forall x, In x l -> f x = []) -> flat_map f l = [].
Proof. induction l as [|x l IH]; intros H; cbn [flat_map]; [reflexivity|]. rewrite (H x (or_introl eq_refl)), IH; [reflexivity|]. intros y Hy. apply H. right. exact Hy. Qed.
Lemma flat_map_flat {A C D} (f : A -> list C) (g : C -> list D) l : flat_map g (flat_map f l) = flat_map (fun x => flat_map g (f x)) l.
Proof. induction l as [|x l IH]; cbn [flat_map]; [reflexivity|]. rewrite flat_map_app, IH. reflexivity. Qed.
Lemma flat_map_map {A C D} (f : A -> C) (g : C -> list D) l : flat_map g (map f l) = flat_map (fun x => g (f x)) l.
Proof. induction l as [|x l IH]; cbn [map flat_map]; [reflexivity|]. rewrite IH. reflexivity. Qed.
Lemma map_flat_map {A C D} (f : A -> list C) (g : C -> D) l : map g (flat_map f l) = flat_map (fun x => map g (f x)) l.
Proof. induction l as [|x l IH]; cbn [flat_map]; [reflexivity|]. rewrite map_app, IH. reflexivity. Qed.
Lemma flat_map_single {A C} (f : A -> C) l : flat_map (fun x => [f x]) l = map f l.
Proof. induction l as [|x l IH]; cbn; [reflexivity|]. rewrite IH. reflexivity. Qed.
Lemma flat_map_where {A C} (b : bool) (f : A -> list C) l : flat_map (fun x => where_ b (f x)) l = where_ b (flat_map f l).
Proof. destruct b; [reflexivity|]. apply flat_map_nil. reflexivity. Qed.
Lemma filter_flat {A} (p : A -> bool) l : flat_map (fun x => where_ (p x) [x]) l = filter p l.
Proof. induction l as [|x l IH]; cbn [flat_map filter]; [reflexivity|]. rewrite IH. destruct (p x); reflexivity. Qed.
(** Exactly one element passes. *)
Lemma flat_map_key {A C K} (key : A -> K) (p : A -> bool) (f : A -> list C) l x : NoDup (map key l) -> In x l -> p x = true -> (forall y, In y l -> p y = true -> key y = key x) ->
  flat_map (fun y => where_ (p y) (f y)) l = f x.
Proof.
  induction l as [|y l IH]; intros ND Hin P U; [destruct Hin|]. cbn [flat_map]. inversion ND as [|? ? Ny ND' E]; subst. destruct Hin as [->|Hin].
  - rewrite P. cbn [where_]. rewrite flat_map_nil; [apply app_nil_r|]. intros z Hz. destruct (p z) eqn:Pz; [|reflexivity]. exfalso. apply Ny. rewrite <- (U z (or_intror Hz) Pz). apply in_map, Hz.
  - destruct (p y) eqn:Py.
    + exfalso. apply Ny. rewrite (U y (or_introl eq_refl) Py). apply in_map, Hin.
    + cbn [where_ app]. apply IH; auto. intros z Hz. apply U. right. exact Hz.
Qed.

(** ** Places *)
Lemma enum_from {A} (l : list A) : forall n, combine (seq n (length l)) l = map (fun '(i, x) => ((n + i)%nat, x)) (enum l).
Proof.
  unfold enum. induction l as [|x l IH]; intros n; [reflexivity|]. cbn [length seq combine map]. rewrite Nat.add_0_r. f_equal. rewrite (IH (S n)), (IH 1%nat), map_map. apply map_ext. intros [i y]. f_equal. lia.
Qed.
Lemma enum_cons {A} (x : A) l : enum (x :: l) = (0%nat, x) :: map (fun '(i, y) => (S i, y)) (enum l).
Proof. unfold enum at 1. cbn [length seq combine]. f_equal. apply (enum_from l 1). Qed.
Lemma enum_in {A} (l : list A) : forall i x, In (i, x) (enum l) <-> nth_error l i = Some x.
Proof.
  induction l as [|y l IH]; intros i x; [split; [intros []|destruct i; discriminate]|]. rewrite enum_cons. split.
  - intros [[= <- <-]|H]; [reflexivity|]. apply in_map_iff in H. destruct H as ([j z] & [= <- <-] & H). apply IH, H.
  - destruct i as [|i]; intros H; [injection H as ->; left; reflexivity|]. right. apply in_map_iff. exists (i, x). split; [reflexivity|]. apply IH, H.
Qed.
Lemma enum_snd {A} (l : list A) : map snd (enum l) = l.
Proof. induction l as [|x l IH]; [reflexivity|]. rewrite enum_cons. cbn [map snd]. f_equal. rewrite map_map. rewrite <- IH at 2. apply map_ext. intros [i y]. reflexivity. Qed.
Lemma enum_fst {A} (l : list A) : map fst (enum l) = seq 0 (length l).
Proof.
  induction l as [|x l IH]; [reflexivity|]. rewrite enum_cons. cbn [map fst length seq]. f_equal. rewrite map_map. rewrite <- seq_shift, <- IH, map_map. apply map_ext. intros [i y]. reflexivity.
Qed.
Lemma enum_once {A} (l : list A) : NoDup (map fst (enum l)). Proof. rewrite enum_fst. apply seq_NoDup. Qed.
Lemma flat_enum {A C} (f : A -> list C) l : flat_map (fun '(i, x) => f x) (enum l) = flat_map f l.
Proof. rewrite <- (enum_snd l) at 2. rewrite flat_map_map. apply flat_map_in_ext. intros [i x] _. reflexivity. Qed.
(** The element at a place. *)
Lemma flat_enum_at {A C} (l : list A) i x (f : nat * A -> list C) : nth_error l i = Some x -> flat_map (fun e => where_ (fst e =? i)%nat (f e)) (enum l) = f (i, x).
Proof.
  intros H. apply (flat_map_key fst (fun e => (fst e =? i)%nat) f (enum l) (i, x)); [apply enum_once|apply enum_in, H|apply Nat.eqb_refl|]. intros [j y] _ E. apply Nat.eqb_eq in E. exact E.
Qed.
Lemma memb_in x l : memb x l = true <-> In x l.
Proof. unfold memb. rewrite existsb_exists. split; [intros (y & H & E); destruct (beqb_spec x y); [subst; exact H|discriminate]|]. intros H. exists x. split; [exact H|]. destruct (beqb_spec x x); congruence. Qed.
Lemma memn_in x l : memn x l = true <-> In x l.
Proof. unfold memn. rewrite existsb_exists. split; [intros (y & H & E); apply Nat.eqb_eq in E; subst; exact H|]. intros H. exists x. split; [exact H|apply Nat.eqb_refl]. Qed.
Lemma beqb_refl x : beqb x x = true. Proof. destruct (beqb_spec x x); congruence. Qed.

(** attnum is the place of the column, from 1. *)
Lemma attnum_at cols : NoDup (map a_name cols) -> forall k c, nth_error cols k = Some c -> attnum cols (a_name c) = S k.
Proof.
  induction cols as [|d cols IH]; intros ND k c H; [destruct k; discriminate|]. cbn [map] in ND. inversion ND as [|? ? N ND' E]; subst. destruct k as [|k]; cbn [nth_error attnum] in *.
  - injection H as ->. rewrite beqb_refl. reflexivity.
  - destruct (beqb_spec (a_name d) (a_name c)) as [E|E].
    + exfalso. apply N. rewrite E. apply in_map. eapply nth_error_In, H.
    + rewrite (IH ND' k c H). reflexivity.
Qed.
Lemma attnum_eq cols : NoDup (map a_name cols) -> forall k c n, nth_error cols k = Some c -> (attnum cols n = S k <-> n = a_name c).
Proof.
  intros ND k c n H. split; [|intros ->; apply attnum_at; assumption]. revert k c H. induction cols as [|d cols IH]; intros k c H; [destruct k; discriminate|]. cbn [attnum]. cbn [map] in ND. inversion ND as [|? ? N ND' E]; subst.
  destruct (beqb_spec (a_name d) n) as [E|E].
  - intros [= <-]. cbn in H. congruence.
  - destruct (attnum cols n) as [|m] eqn:Ea; [discriminate|]. intros [= <-]. cbn [nth_error] in H. apply (IH ND' m c H). reflexivity.
Qed.
Lemma indkey_has t x k c : NoDup (col_names t) -> nth_error (at_cols t) k = Some c -> memn (S k) (indkey t x) = memb (a_name c) (used_columns x).
Proof.
  intros ND H. apply eq_true_iff_eq. rewrite memn_in, memb_in. unfold indkey, used_columns. rewrite !in_app_iff, !in_map_iff, in_flat_map. split.
  - intros [(o & E & Ho)|(n & E & Hn)].
    + destruct o as [n|]; [|discriminate]. left. exists (Some n). split; [exact Ho|]. left. apply (attnum_eq _ ND k c n H) in E. exact E.
    + right. apply (attnum_eq _ ND k c n H) in E. subst. exact Hn.
  - intros [(o & Ho & Hn)|Hn].
    + destruct o as [n|]; [|destruct Hn]. destruct Hn as [->|[]]. left. exists (Some (a_name c)). split; [|exact Ho]. apply attnum_at; assumption.
    + right. exists (a_name c). split; [apply attnum_at; assumption|exact Hn].
Qed.

(** ** PostgreSQL: indexes *)
Lemma oid_eqb_eq a b : oid_eqb a b = true <-> a = b.
Proof.
  destruct a as [i [j|]], b as [k [l|]]; unfold oid_eqb; cbn [fst snd]; rewrite andb_true_iff, ?Nat.eqb_eq; split; try (intros [? ?]; congruence); intros H; inversion H; auto.
Qed.
Lemma oid_eqb_refl a : oid_eqb a a = true. Proof. apply oid_eqb_eq. reflexivity. Qed.
Definition cls_oid (c : oid * bytes * ascii) : oid := fst (fst c).
Lemma nodup_flat {A C} (f : A -> list C) l : NoDup l -> (forall x, In x l -> NoDup (f x)) -> (forall x y z, In x l -> In y l -> In z (f x) -> In z (f y) -> x = y) -> NoDup (flat_map f l).
Proof.
  induction l as [|x l IH]; intros ND H1 H2; cbn [flat_map]; [constructor|]. inversion ND as [|? ? N ND' E]; subst.
  assert (R : NoDup (flat_map f l)) by (apply IH; [exact ND'|intros y Hy; apply H1; right; exact Hy|intros y z w Hy Hz; apply H2; right; assumption]).
  assert (F : NoDup (f x)) by (apply H1; left; reflexivity). assert (D : forall z, In z (f x) -> ~ In z (flat_map f l)).
  { intros z Hz Hf. apply in_flat_map in Hf. destruct Hf as (y & Hy & Hzy). assert (x = y) by (apply (H2 x y z); [left; reflexivity|right; exact Hy|exact Hz|exact Hzy]). subst. contradiction. }
  clear - R F D. induction (f x) as [|z fx IHf]; cbn [app]; [exact R|]. inversion F as [|? ? Nz F' E]; subst. constructor; [rewrite in_app_iff; intros [Q|Q]; [contradiction|apply (D z); [left; reflexivity|exact Q]]|]. apply IHf; [exact F'|]. intros w Hw. apply D. right. exact Hw.
Qed.
Lemma class_once db : NoDup (map cls_oid (pg_class db)).
Proof.
  unfold pg_class. rewrite map_flat_map. apply nodup_flat.
  - assert (H : NoDup (map fst (enum db))) by apply enum_once. apply NoDup_map_inv in H. exact H.
  - intros [i t] _. cbn [map cls_oid fst]. constructor.
    + rewrite map_map. intros H. apply in_map_iff in H. destruct H as ([j x] & E & _). discriminate.
    + rewrite map_map. assert (N : NoDup (map fst (enum (at_idx t)))) by apply enum_once. rewrite (map_ext (fun e : nat * aindex => cls_oid (let '(j, x) := e in ((i, Some j), ai_name x, ch 105))) (fun e => (i, Some (fst e)))) by (intros [j x]; reflexivity).
      assert (Q : NoDup (map (fun j => (i, Some j)) (map fst (enum (at_idx t))))) by (apply FinFun.Injective_map_NoDup; [|exact N]; intros a b [= E]; exact E). rewrite map_map in Q. exact Q.
  - intros [i t] [i' t'] z Hx Hy Hz Hz'. assert (F : forall i t z, In z (map cls_oid (((i, None), at_name t, relkind (at_kind t)) :: map (fun '(j, x) => ((i, Some j), ai_name x, ch 105)) (enum (at_idx t)))) -> fst z = i).
    { clear. intros i t z [<-|H]; [reflexivity|]. rewrite map_map in H. apply in_map_iff in H. destruct H as ([j x] & <- & _). reflexivity. }
    apply F in Hz. apply F in Hz'. assert (i = i') by congruence. subst i'. apply enum_in in Hx, Hy. congruence.
Qed.
Lemma class_table db i t : nth_error db i = Some t -> In ((i, None), at_name t, relkind (at_kind t)) (pg_class db).
Proof. intros H. unfold pg_class. apply in_flat_map. exists (i, t). split; [apply enum_in, H|left; reflexivity]. Qed.
Lemma class_index db i t j x : nth_error db i = Some t -> nth_error (at_idx t) j = Some x -> In ((i, Some j), ai_name x, ch 105) (pg_class db).
Proof. intros H Hx. unfold pg_class. apply in_flat_map. exists (i, t). split; [apply enum_in, H|right]. apply in_map_iff. exists (j, x). split; [reflexivity|apply enum_in, Hx]. Qed.
Lemma relkind_table k : Ascii.eqb (relkind k) (ch 114) = match k with TTable => true | _ => false end. Proof. destruct k; reflexivity. Qed.
Definition is_table (t : atable) : bool := match at_kind t with TTable => true | _ => false end.
(** The joins over ids fall away. *)
Lemma index_rows_plain db s n : (forall t, In t db -> NoDup (col_names t)) ->
  pg_index_rows db s n = flat_map (fun t => where_ (is_table t) (flat_map (fun x =>
     flat_map (fun c => flat_map (fun '(sn, tn, iname) => where_ (beqb iname (ai_name x) && beqb sn s && beqb tn n) [((ai_name x, ai_primary x, ai_unique x), c)]) (pg_indexes db)) (index_columns t x)) (at_idx t))) db.
Proof.
  intros ND. unfold pg_index_rows, pg_index. rewrite flat_map_flat. rewrite <- (flat_enum (fun t => where_ (is_table t) _) db). apply flat_map_in_ext. intros [i t] Hi. apply enum_in in Hi. assert (Ht : In t db) by (eapply nth_error_In, Hi).
  rewrite flat_map_map. rewrite <- (flat_enum _ (at_idx t)), <- flat_map_where. apply flat_map_in_ext. intros [j x] Hj. apply enum_in in Hj.
  cbn [pgi_tab pgi_rel pgi_pri pgi_uni pgi_key].
  rewrite (flat_map_in_ext _ (fun c => where_ (oid_eqb (cls_oid c) (i, None)) (where_ (Ascii.eqb (snd c) (ch 114))
     (flat_map (fun '(i0, relname, _) => where_ (oid_eqb i0 (i, Some j))
        (flat_map (fun '(attrelid, num, attname) => where_ (oid_eqb attrelid (cls_oid c) && memn num (indkey t x))
          (flat_map (fun '(sn, tn, iname) => where_ (beqb iname relname && beqb sn s && beqb tn n) [((relname, ai_primary x, ai_unique x), attname)]) (pg_indexes db))) (pg_attribute db))) (pg_class db))))).
  2:{ intros [[o nm] kd] _. unfold cls_oid. cbn [fst snd]. destruct (oid_eqb o (i, None)), (Ascii.eqb kd (ch 114)); reflexivity. }
  rewrite (flat_map_key cls_oid (fun c => oid_eqb (cls_oid c) (i, None)) _ (pg_class db) ((i, None), at_name t, relkind (at_kind t)) (class_once db) (class_table db i t Hi)); [|apply oid_eqb_refl|intros y _ E; apply oid_eqb_eq in E; exact E].
  unfold cls_oid at 1. cbn [fst snd]. rewrite relkind_table. change (match at_kind t with TTable => true | _ => false end) with (is_table t). destruct (is_table t); [|reflexivity]. cbn [where_].
  rewrite (flat_map_in_ext _ (fun c => where_ (oid_eqb (cls_oid c) (i, Some j))
        (flat_map (fun '(attrelid, num, attname) => where_ (oid_eqb attrelid (i, None) && memn num (indkey t x))
          (flat_map (fun '(sn, tn, iname) => where_ (beqb iname (snd (fst c)) && beqb sn s && beqb tn n) [((snd (fst c), ai_primary x, ai_unique x), attname)]) (pg_indexes db))) (pg_attribute db)))).
  2:{ intros [[o nm] kd] _. reflexivity. }
  rewrite (flat_map_key cls_oid (fun c => oid_eqb (cls_oid c) (i, Some j)) _ (pg_class db) ((i, Some j), ai_name x, ch 105) (class_once db) (class_index db i t j x Hi Hj)); [|apply oid_eqb_refl|intros y _ E; apply oid_eqb_eq in E; exact E].
  cbn [fst snd]. unfold pg_attribute. rewrite flat_map_flat.
  rewrite (flat_map_in_ext _ (fun e => where_ (fst e =? i)%nat (flat_map (fun '(k, c) => where_ (memn (S k) (indkey t x))
          (flat_map (fun '(sn, tn, iname) => where_ (beqb iname (ai_name x) && beqb sn s && beqb tn n) [((ai_name x, ai_primary x, ai_unique x), a_name c)]) (pg_indexes db))) (enum (at_cols (snd e)))))).
  2:{ intros [i' t'] _. rewrite flat_map_map. cbn [fst snd]. rewrite <- flat_map_where. apply flat_map_in_ext. intros [k c] _. unfold oid_eqb. cbn [fst snd]. rewrite andb_true_r. destruct (i' =? i)%nat; reflexivity. }
  rewrite (flat_enum_at db i t _ Hi). cbn [snd]. unfold index_columns, col_names.
  rewrite <- filter_flat, flat_map_flat, flat_map_map, <- (flat_enum _ (at_cols t)). apply flat_map_in_ext. intros [k c] Hk. apply enum_in in Hk.
  rewrite (indkey_has t x k c (ND t Ht) Hk). destruct (memb (a_name c) (used_columns x)); cbn [where_ flat_map]; [rewrite app_nil_r|]; reflexivity.
Qed.
(** ** GROUP BY *)
Lemma add_group_new {K V} (eqb : K -> K -> bool) k (v : V) g : (forall j vs, In (j, vs) g -> eqb j k = false) -> add_group eqb k v g = g ++ [(k, [v])].
Proof. induction g as [|[j vs] g IH]; intros H; [reflexivity|]. cbn [add_group app]. rewrite (H j vs (or_introl eq_refl)), IH; [reflexivity|]. intros i ws Hi. apply (H i ws). right. exact Hi. Qed.
Lemma add_group_last {K V} (eqb : K -> K -> bool) k (v : V) vs g : eqb k k = true -> (forall j ws, In (j, ws) g -> eqb j k = false) -> add_group eqb k v (g ++ [(k, vs)]) = g ++ [(k, vs ++ [v])].
Proof.
  intros R. induction g as [|[j ws] g IH]; intros H; cbn [app add_group]; [rewrite R; reflexivity|]. rewrite (H j ws (or_introl eq_refl)), IH; [reflexivity|]. intros i us Hi. apply (H i us). right. exact Hi.
Qed.
Lemma group_block {K V} (eqb : K -> K -> bool) k (vs : list V) g : eqb k k = true -> (forall j ws, In (j, ws) g -> eqb j k = false) -> vs <> [] ->
  fold_left (fun g kv => add_group eqb (fst kv) (snd kv) g) (map (fun v => (k, v)) vs) g = g ++ [(k, vs)].
Proof.
  intros R H N. destruct vs as [|v vs]; [congruence|]. cbn [map fold_left fst snd]. rewrite add_group_new by exact H. clear N.
  change [v] with ([] ++ [v]) at 1. replace (v :: vs) with (([] ++ [v]) ++ vs) by reflexivity. generalize ([] ++ [v]) as us.
  induction vs as [|w vs IH]; intros us; cbn [map fold_left fst snd]; [rewrite app_nil_r; reflexivity|]. rewrite add_group_last by assumption. rewrite IH, <- app_assoc. reflexivity.
Qed.
Lemma group_blocks {X K V} (eqb : K -> K -> bool) (key : X -> K) (vals : X -> list V) (xs : list X) :
  (forall a b, eqb a b = true <-> a = b) -> NoDup (map key xs) ->
  group_by eqb (flat_map (fun x => map (fun v => (key x, v)) (vals x)) xs) = flat_map (fun x => match vals x with [] => [] | vs => [(key x, vs)] end) xs.
Proof.
  intros Eq ND. unfold group_by.
  assert (G : forall xs g, NoDup (map key xs) -> (forall x j ws, In x xs -> In (j, ws) g -> j <> key x) ->
    fold_left (fun g kv => add_group eqb (fst kv) (snd kv) g) (flat_map (fun x => map (fun v => (key x, v)) (vals x)) xs) g = g ++ flat_map (fun x => match vals x with [] => [] | vs => [(key x, vs)] end) xs).
  { clear xs ND. induction xs as [|x xs IH]; intros g ND H; cbn [flat_map]; [rewrite app_nil_r; reflexivity|]. rewrite fold_left_app. cbn [map] in ND. inversion ND as [|? ? N ND' E]; subst. destruct (vals x) as [|v vs] eqn:Ev.
    - cbn [map fold_left app]. apply IH; [exact ND'|]. intros y j ws Hy. apply H. right. exact Hy.
    - rewrite group_block; [|apply Eq; reflexivity| |discriminate].
      + rewrite IH; [rewrite <- app_assoc; reflexivity|exact ND'|]. intros y j ws Hy Hj. apply in_app_iff in Hj. destruct Hj as [Hj|[[= <- <-]|[]]]; [apply (H y j ws); [right; exact Hy|exact Hj]|]. intros Q. apply N. rewrite Q. apply in_map, Hy.
      + intros j ws Hj. destruct (eqb j (key x)) eqn:Q; [|reflexivity]. apply Eq in Q. exfalso. apply (H x j ws); [left; reflexivity|exact Hj|exact Q]. }
  rewrite (G xs [] ND); [reflexivity|]. intros x j ws _ [].
Qed.
Lemma ikey_eqb_eq a b : ikey_eqb a b = true <-> a = b.
Proof.
  destruct a as [[n p] u], b as [[n' p'] u']. unfold ikey_eqb. cbn [fst snd]. rewrite !andb_true_iff, !Bool.eqb_true_iff. destruct (beqb_spec n n'); split; [intros [[_ ->] ->]; congruence|intros [= _ -> ->]; auto|intros [[? _] _]; discriminate|intros [= -> _ _]; congruence].
Qed.
(** ** The indexes of a table, when no other index has their names *)
Lemma nodup_flat_inv {A C} (f : A -> list C) l x y z : NoDup (flat_map f l) -> In x l -> In y l -> In z (f x) -> In z (f y) -> x = y \/ exists l1 l2 l3, l = l1 ++ x :: l2 ++ x :: l3.
Proof.
  induction l as [|w l IH]; intros ND Hx Hy Zx Zy; [destruct Hx|]. cbn [flat_map] in ND. destruct Hx as [->|Hx], Hy as [->|Hy]; [left; reflexivity| | |].
  - exfalso. clear IH. revert ND. induction (f x) as [|c fx IHf]; [destruct Zx|]. cbn [app]. intros ND. inversion ND as [|? ? N ND' E]; subst. destruct Zx as [->|Zx]; [apply N, in_app_iff; right; apply in_flat_map; exists y; auto|apply (IHf Zx ND')].
  - exfalso. clear IH. revert ND. induction (f y) as [|c fy IHf]; [destruct Zy|]. cbn [app]. intros ND. inversion ND as [|? ? N ND' E]; subst. destruct Zy as [->|Zy]; [apply N, in_app_iff; right; apply in_flat_map; exists x; auto|apply (IHf Zy ND')].
  - assert (ND' : NoDup (flat_map f l)) by (clear - ND; induction (f w); [exact ND|inversion ND; auto]). destruct (IH ND' Hx Hy Zx Zy) as [->|(l1 & l2 & l3 & ->)]; [left; reflexivity|right]. exists (w :: l1), l2, l3. reflexivity.
Qed.
Lemma same_table db t u : NoDup (map table_key db) -> In t db -> In u db -> table_key t = table_key u -> t = u.
Proof.
  induction db as [|w db IH]; intros ND Ht Hu E; [destruct Ht|]. cbn [map] in ND. inversion ND as [|? ? N ND' E']; subst. destruct Ht as [->|Ht], Hu as [->|Hu]; [reflexivity| | |apply IH; assumption].
  - exfalso. apply N. rewrite E. apply in_map, Hu.
  - exfalso. apply N. rewrite <- E. apply in_map, Ht.
Qed.
Lemma once_index db t u i : NoDup (map table_key db) -> index_names_once db -> In t db -> In u db -> In i (map ai_name (at_idx t)) -> In i (map ai_name (at_idx u)) -> t = u.
Proof.
  intros NT NI Ht Hu It Iu. destruct (nodup_flat_inv (fun t => map ai_name (at_idx t)) db t u i NI Ht Hu It Iu) as [E|(l1 & l2 & l3 & ->)]; [exact E|]. exfalso. clear - NT. induction l1 as [|w l1 IH]; cbn [app map] in NT; inversion NT as [|? ? N ND E]; subst.
  - apply N. rewrite map_app. apply in_app_iff. right. left. reflexivity.
  - apply IH, ND.
Qed.
Lemma ai_key_once (l : list aindex) : NoDup (map ai_name l) -> NoDup (map (fun x => (ai_name x, ai_primary x, ai_unique x)) l).
Proof. intros H. assert (E : map ai_name l = map (fun k => fst (fst k)) (map (fun x => (ai_name x, ai_primary x, ai_unique x)) l)) by (rewrite map_map; reflexivity). rewrite E in H. apply NoDup_map_inv in H. exact H. Qed.
Definition listed_indexes (t : atable) : list ((bytes * bool * bool) * list bytes) :=
  flat_map (fun x => match index_columns t x with [] => [] | cs => [((ai_name x, ai_primary x, ai_unique x), cs)] end) (at_idx t).
Lemma pg_indexes_of db t x : db_ok db -> index_names_once db -> In t db -> is_table t = true -> In x (at_idx t) -> forall C (f : list C) s n,
  flat_map (fun '(sn, tn, iname) => where_ (beqb iname (ai_name x) && beqb sn s && beqb tn n) f) (pg_indexes db) = where_ (beqb (at_schema t) s && beqb (at_name t) n) f.
Proof.
  intros Ok NI Ht Kt Hx C f s n. unfold pg_indexes. rewrite flat_map_flat. unfold is_table in Kt.
  rewrite (flat_map_in_ext _ (fun u => where_ (match at_kind u with TTable | TMatview | TPartitioned => memb (ai_name x) (map ai_name (at_idx u)) | _ => false end) (where_ (beqb (at_schema u) s && beqb (at_name u) n) f))).
  2:{ intros u Hu. assert (M : flat_map (fun '(sn, tn, iname) => where_ (beqb iname (ai_name x) && beqb sn s && beqb tn n) f) (map (fun y => (at_schema u, at_name u, ai_name y)) (at_idx u)) = where_ (memb (ai_name x) (map ai_name (at_idx u))) (where_ (beqb (at_schema u) s && beqb (at_name u) n) f)).
      { rewrite flat_map_map. pose proof (ok_idx_names db Ok u Hu) as NDu. destruct (memb (ai_name x) (map ai_name (at_idx u))) eqn:M.
        - apply memb_in in M. apply in_map_iff in M. destruct M as (y & Ey & Hy). rewrite (flat_map_in_ext _ (fun z => where_ (beqb (ai_name z) (ai_name x)) (where_ (beqb (at_schema u) s && beqb (at_name u) n) f))) by (intros z _; destruct (beqb (ai_name z) (ai_name x)); reflexivity).
          apply (flat_map_key ai_name (fun z => beqb (ai_name z) (ai_name x)) _ (at_idx u) y NDu Hy); [rewrite Ey; apply beqb_refl|]. intros z _ Ez. destruct (beqb_spec (ai_name z) (ai_name x)); congruence.
        - apply flat_map_nil. intros z Hz. destruct (beqb_spec (ai_name z) (ai_name x)) as [Ez|]; [|reflexivity]. exfalso. assert (memb (ai_name x) (map ai_name (at_idx u)) = true) by (apply memb_in; rewrite <- Ez; apply in_map, Hz). congruence. }
      destruct (at_kind u); try exact M; reflexivity. }
  apply (flat_map_key table_key (fun u => match at_kind u with TTable | TMatview | TPartitioned => memb (ai_name x) (map ai_name (at_idx u)) | _ => false end) (fun u => where_ (beqb (at_schema u) s && beqb (at_name u) n) f) db t (ok_tables db Ok) Ht).
  - destruct (at_kind t); try discriminate. apply memb_in, in_map, Hx.
  - intros u Hu Q. f_equal. symmetry. apply (once_index db t u (ai_name x) (ok_tables db Ok) NI Ht Hu); [apply in_map, Hx|]. destruct (at_kind u); try discriminate; apply memb_in, Q.
Qed.
Lemma pg_q_indexes_ok db t : db_ok db -> index_names_once db -> In t db -> pg_q_indexes db (at_schema t) (at_name t) = if is_table t then listed_indexes t else [].
Proof.
  intros Ok NI Ht. unfold pg_q_indexes. rewrite index_rows_plain by apply (ok_cols db Ok).
  rewrite (flat_map_in_ext _ (fun u => where_ (beqb (at_schema u) (at_schema t) && beqb (at_name u) (at_name t)) (where_ (is_table u) (flat_map (fun x => map (fun c => ((ai_name x, ai_primary x, ai_unique x), c)) (index_columns u x)) (at_idx u))))).
  2:{ intros u Hu. destruct (is_table u) eqn:Ku; cbn [where_]; [|destruct (_ && _); reflexivity]. rewrite <- flat_map_where. apply flat_map_in_ext. intros x Hx.
      rewrite (flat_map_in_ext _ (fun c => where_ (beqb (at_schema u) (at_schema t) && beqb (at_name u) (at_name t)) [((ai_name x, ai_primary x, ai_unique x), c)])) by (intros c _; apply pg_indexes_of; assumption).
      rewrite flat_map_where, flat_map_single. reflexivity. }
  rewrite (flat_map_key table_key (fun u => beqb (at_schema u) (at_schema t) && beqb (at_name u) (at_name t)) _ db t (ok_tables db Ok) Ht); [|rewrite !beqb_refl; reflexivity|].
  2:{ intros u _ Q. apply andb_true_iff in Q. destruct Q as [Q1 Q2]. unfold table_key. destruct (beqb_spec (at_schema u) (at_schema t)); [|discriminate]. destruct (beqb_spec (at_name u) (at_name t)); [|discriminate]. congruence. }
  destruct (is_table t); [|reflexivity]. cbn [where_]. unfold listed_indexes. apply (group_blocks ikey_eqb (fun x => (ai_name x, ai_primary x, ai_unique x)) (index_columns t) (at_idx t) ikey_eqb_eq). apply ai_key_once, (ok_idx_names db Ok t Ht).
Qed.
(** No such table: no indexes. *)
Lemma pg_q_indexes_none db s n : (forall t, In t db -> table_key t <> (s, n)) -> pg_q_indexes db s n = [].
Proof.
  intros H. unfold pg_q_indexes. enough (pg_index_rows db s n = []) as -> by reflexivity.
  unfold pg_index_rows. apply flat_map_nil. intros ix _. apply flat_map_nil. intros [[t nm] kd] _. destruct (_ && _); [|reflexivity]. apply flat_map_nil. intros [[i rn] k2] _. destruct (oid_eqb _ _); [|reflexivity]. apply flat_map_nil. intros [[ar num] an] _. destruct (_ && _); [|reflexivity].
  apply flat_map_nil. intros [[sn tn] iname] Hin. unfold pg_indexes in Hin. apply in_flat_map in Hin. destruct Hin as (u & Hu & Hin). assert (sn = at_schema u /\ tn = at_name u) as [-> ->] by (destruct (at_kind u); try destruct Hin; apply in_map_iff in Hin; destruct Hin as (y & [= <- <- _] & _); auto).
  destruct (beqb_spec (at_schema u) s) as [E1|]; [|rewrite andb_false_r; reflexivity]. destruct (beqb_spec (at_name u) n) as [E2|]; [|rewrite andb_false_r; reflexivity]. exfalso. apply (H u Hu). unfold table_key. congruence.
Qed.
