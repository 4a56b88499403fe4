(** Descriptions play no role on engines that get no comments. *)
From Verif Require Import PyStr QuoteModel ObjectDict ObjectDictProofs Types Objects SqlAst Ddl Mutate TopoSpec SortSpec SortProofs EqProofs KeySpec NoopProofs HushSpec.
From Coq Require Import String List Bool Permutation Lia.
Import ListNotations.
Open Scope list_scope.

(** ** Collections *)
Section Od.
  Context {A : Type} (key : A -> string) (f : A -> A).
  Hypothesis K : forall x, key (f x) = key x.
  Lemma keys_map l : map key (map f l) = map key l.
  Proof. rewrite map_map. now apply map_ext. Qed.
  Lemma mem_map k l : od_mem key k (map f l) = od_mem key k l.
  Proof. induction l as [|x l IH]; [reflexivity|]. unfold od_mem in *. cbn. now rewrite K, IH. Qed.
  Lemma get_map k l : od_get key k (map f l) = option_map f (od_get key k l).
  Proof. induction l as [|x l IH]; [reflexivity|]. unfold od_get in *. cbn. rewrite K. destruct (String.eqb (key x) k); [reflexivity|exact IH]. Qed.
  Lemma difference_map s t : od_difference key (map f s) (map f t) = map f (od_difference key s t).
  Proof. unfold od_difference. induction s as [|x s IH]; [reflexivity|]. cbn. rewrite K, mem_map. destruct (negb _); cbn; now rewrite IH. Qed.
  Lemma intersection_map s t : od_intersection key (map f s) (map f t) = map (fun p => (f (fst p), f (snd p))) (od_intersection key s t).
  Proof. induction s as [|x s IH]; [reflexivity|]. cbn. rewrite K, get_map. destruct (od_get key (key x) t); cbn; now rewrite IH. Qed.
  Lemma set_map x l : od_set key (f x) (map f l) = map f (od_set key x l).
  Proof. induction l as [|y l IH]; [reflexivity|]. cbn. rewrite !K. destruct (String.eqb (key y) (key x)); cbn; [reflexivity|now rewrite IH]. Qed.
  Lemma make_map l : od_make key (map f l) = map f (od_make key l).
  Proof.
    unfold od_make. assert (G : forall l acc, fold_left (fun d x => od_set key x d) (map f l) (map f acc) = map f (fold_left (fun d x => od_set key x d) l acc)); [|exact (G l [])].
    induction l0 as [|x r IH]; intros acc; [reflexivity|]. cbn. rewrite set_map. apply IH.
  Qed.
End Od.
Lemma filter_map {A B} (p : B -> bool) (f : A -> B) l : filter p (map f l) = map f (filter (fun x => p (f x)) l).
Proof. induction l as [|x l IH]; [reflexivity|]. cbn. destruct (p (f x)); cbn; now rewrite IH. Qed.
Lemma flat_map_map {A B C} (g : B -> list C) (f : A -> B) l : flat_map g (map f l) = flat_map (fun x => g (f x)) l.
Proof. induction l as [|x l IH]; [reflexivity|]. cbn. now rewrite IH. Qed.
Lemma map_res_map {A B C} (g : B -> res C) (f : A -> B) l : map_res g (map f l) = map_res (fun x => g (f x)) l.
Proof. induction l as [|x l IH]; [reflexivity|]. cbn. now rewrite IH. Qed.
Lemma map_res_ext' {A B} (f g : A -> res B) l : (forall x, f x = g x) -> map_res f l = map_res g l.
Proof. intros E. induction l as [|x l IH]; [reflexivity|]. cbn. now rewrite E, IH. Qed.
Lemma concat_res_map {A B C} (g : B -> res (list C)) (f : A -> B) l : concat_res g (map f l) = concat_res (fun x => g (f x)) l.
Proof. unfold concat_res. now rewrite map_res_map. Qed.
Lemma concat_res_ext {A B} (f g : A -> res (list B)) l : (forall x, f x = g x) -> concat_res f l = concat_res g l.
Proof. intros E. unfold concat_res. now rewrite (map_res_ext' f g l E). Qed.

Section Silent.
  Context (d : dialect).
  Hypothesis Sd : silent d.

  Lemma hush_def c : column_def d (hush_col c) = column_def d c.
  Proof. destruct Sd as [-> | ->]; reflexivity. Qed.
  Lemma hush_create c : create_column d (hush_col c) = create_column d c.
  Proof. unfold create_column. now rewrite hush_def. Qed.
  Lemma hush_drop c : drop_column d (hush_col c) = drop_column d c.
  Proof. destruct Sd as [-> | ->]; reflexivity. Qed.
  Lemma hush_soft c : soft_drop_column d (hush_col c) = soft_drop_column d c.
  Proof. destruct Sd as [-> | ->]; reflexivity. Qed.
  Lemma hush_migrated s t : is_column_migrated d (hush_col s) (hush_col t) = is_column_migrated d s t.
  Proof.
    assert (G : forall a b, (col_eqb a b || type_eqb (c_type a) (c_type b))%bool = type_eqb (c_type a) (c_type b)). { intros a b. unfold col_eqb. destruct (type_eqb (c_type a) (c_type b)); [now rewrite orb_true_r|]. now rewrite andb_false_r, !andb_false_l. }
    unfold is_column_migrated. now rewrite !G.
  Qed.
  Lemma hush_mutate s t : mutate_column d (hush_col s) (hush_col t) = mutate_column d s t.
  Proof. destruct Sd as [-> | ->]; reflexivity. Qed.
  Lemma hush_constraint t c : get_constraint (hush_tab t) c = get_constraint t c.
  Proof. reflexivity. Qed.
  Lemma hush_move st s t c : migrate_column d (hush_tab st) (hush_col s) (hush_tab t) (hush_col c) = migrate_column d st s t c.
  Proof. destruct Sd as [-> | ->]; reflexivity. Qed.
  Lemma hush_columns s t : od_difference c_name (t_columns (hush_tab s)) (t_columns (hush_tab t)) = map hush_col (od_difference c_name (t_columns s) (t_columns t)).
  Proof. exact (difference_map c_name hush_col (fun _ => eq_refl) _ _). Qed.
  Lemma hush_common s t : od_intersection c_name (t_columns (hush_tab s)) (t_columns (hush_tab t)) = map (fun p => (hush_col (fst p), hush_col (snd p))) (od_intersection c_name (t_columns s) (t_columns t)).
  Proof. exact (intersection_map c_name hush_col (fun _ => eq_refl) _ _). Qed.
  Lemma hush_table_base s t : mutate_table_base d (hush_tab s) (hush_tab t) = mutate_table_base d s t.
  Proof.
    unfold mutate_table_base. change (t_name (hush_tab s)) with (t_name s). change (t_name (hush_tab t)) with (t_name t). destruct (check_identity (t_name s) (t_name t)) as [[]|]; [|reflexivity]. cbn [bind].
    rewrite !hush_columns, hush_common. rewrite filter_map. cbn [fst snd].
    rewrite (filter_ext (fun x => is_column_migrated d (hush_col (fst x)) (hush_col (snd x))) (fun x => is_column_migrated d (fst x) (snd x))) by (intros x; apply hush_migrated).
    set (mg := filter _ _). rewrite !concat_res_map, !map_res_map, !map_map. cbn [fst snd].
    rewrite (concat_res_ext (fun x => do a <- soft_drop_column d (hush_col (fst x)); Ok (alter_table d (t_name s) [a])) (fun p => do a <- soft_drop_column d (fst p); Ok (alter_table d (t_name s) [a]))) by (intros x; now rewrite hush_soft).
    rewrite (map_res_ext' (fun x => create_column d (hush_col (snd x))) (fun x => create_column d (snd x))) by (intros x; now rewrite hush_create).
    rewrite (map_res_ext' (fun x => create_column d (hush_col x)) (create_column d)) by (intros x; now rewrite hush_create).
    rewrite (concat_res_ext (fun x => migrate_column d (hush_tab s) (hush_col (fst x)) (hush_tab t) (hush_col (snd x))) (fun p => migrate_column d s (fst p) t (snd p))) by (intros x; now rewrite hush_move).
    rewrite (concat_res_ext (fun x => mutate_column d (hush_col (fst x)) (hush_col (snd x))) (fun p => mutate_column d (fst p) (snd p))) by (intros x; now rewrite hush_mutate).
    rewrite (map_ext (fun x => drop_column d (hush_col x)) (drop_column d)) by (intros x; now rewrite hush_drop).
    reflexivity.
  Qed.
  Lemma hush_defaults s t : ms_defaults (hush_tab s) (hush_tab t) = ms_defaults s t.
  Proof. unfold ms_defaults. now rewrite hush_common, flat_map_map. Qed.
  Lemma hush_mutate_table s t : mutate_table d (hush_tab s) (hush_tab t) = mutate_table d s t.
  Proof.
    unfold mutate_table. rewrite hush_table_base. destruct (mutate_table_base d s t); [|reflexivity]. cbn [bind]. destruct Sd as [-> | ->]; [|reflexivity]. rewrite hush_defaults. reflexivity.
  Qed.
  Lemma hush_values t : (do cs <- get_value_columns (hush_tab t) None; Ok (map c_name cs)) = (do cs <- get_value_columns t None; Ok (map c_name cs)).
  Proof. unfold get_value_columns. cbn. rewrite filter_map, map_map. reflexivity. Qed.
  Lemma hush_insert t : enum_insert (hush_tab t) = enum_insert t.
  Proof.
    unfold enum_insert. cbn [t_enum hush_tab]. destruct (t_enum t); [|reflexivity]. pose proof (hush_values t) as H. destruct (get_value_columns (hush_tab t) None), (get_value_columns t None); cbn [bind] in *; try discriminate H; [|injection H as ->; reflexivity].
    injection H as ->. reflexivity.
  Qed.
  Lemma hush_create_table t : create_table d (hush_tab t) = create_table d t.
  Proof.
    unfold create_table. cbn [t_columns hush_tab]. rewrite map_res_map, (map_res_ext' (fun x => column_def d (hush_col x)) (column_def d)) by exact hush_def.
    destruct (map_res (column_def d) (t_columns t)); [|reflexivity]. cbn [bind]. change (Tab _ _ _ _ _ _) with (hush_tab t). rewrite hush_insert. destruct (enum_insert t); [|reflexivity]. cbn [bind]. destruct Sd as [-> | ->]; reflexivity.
  Qed.
  Lemma hush_tables s t : od_difference t_key (n_tables (hush_ns s)) (n_tables (hush_ns t)) = map hush_tab (od_difference t_key (n_tables s) (n_tables t)).
  Proof. exact (difference_map t_key hush_tab (fun _ => eq_refl) _ _). Qed.
  Lemma hush_common_tables s t : od_intersection t_key (n_tables (hush_ns s)) (n_tables (hush_ns t)) = map (fun p => (hush_tab (fst p), hush_tab (snd p))) (od_intersection t_key (n_tables s) (n_tables t)).
  Proof. exact (intersection_map t_key hush_tab (fun _ => eq_refl) _ _). Qed.
  Lemma hush_mutate_ns o s t : mutate_namespace d o (hush_ns s) (hush_ns t) = mutate_namespace d o s t.
  Proof.
    unfold mutate_namespace. rewrite !hush_tables, hush_common_tables. change (n_name (hush_ns s)) with (n_name s). change (n_name (hush_ns t)) with (n_name t). change (n_enums (hush_ns s)) with (n_enums s). change (n_enums (hush_ns t)) with (n_enums t).
    change (n_structs (hush_ns s)) with (n_structs s). change (n_structs (hush_ns t)) with (n_structs t). destruct (negb _); [reflexivity|].
    set (tc := od_difference t_key (n_tables t) (n_tables s)). rewrite !concat_res_map. cbn [fst snd].
    rewrite (concat_res_ext (fun x => create_table d (hush_tab x)) (create_table d)) by exact hush_create_table.
    rewrite (concat_res_ext (fun x => mutate_table d (hush_tab (fst x)) (hush_tab (snd x))) (fun x => mutate_table d (fst x) (snd x))) by (intros x; apply hush_mutate_table).
    rewrite flat_map_map, map_map.
    assert (Same : forall (B : Type) (g : enumt -> table -> B), (forall e x, g e (hush_tab x) = g e x) -> flat_map (fun e => map (g e) (filter (fun tb => qid_eqb (e_name e) (t_name tb)) (map hush_tab tc))) (od_difference e_key (n_enums s) (n_enums t)) = flat_map (fun e => map (g e) (filter (fun tb => qid_eqb (e_name e) (t_name tb)) tc)) (od_difference e_key (n_enums s) (n_enums t))).
    { intros B g Hg. apply flat_map_ext. intros e. rewrite filter_map, map_map. apply map_ext. intros x. apply Hg. }
    rewrite (Same _ (fun e _ => e)) by reflexivity. rewrite (Same _ (migrate_enum d)) by reflexivity. reflexivity.
  Qed.
  Lemma hush_create_objects n : create_objects d (hush_ns n) = create_objects d n.
  Proof. unfold create_objects. cbn [n_tables hush_ns n_structs n_enums]. rewrite concat_res_map, (concat_res_ext (fun x => create_table d (hush_tab x)) (create_table d)) by exact hush_create_table. reflexivity. Qed.
  Lemma hush_drop_objects n : drop_objects (hush_ns n) = drop_objects n.
  Proof. unfold drop_objects. cbn [n_tables hush_ns n_structs n_enums]. rewrite <- map_rev, map_map. reflexivity. Qed.
  (** the statements do not depend on descriptions *)
  Lemma hush_sorted o s t : mutate_sorted d o (hush s) (hush t) = mutate_sorted d o s t.
  Proof.
    unfold mutate_sorted, hush. rewrite !(difference_map n_name hush_ns) by reflexivity. rewrite (intersection_map n_name hush_ns) by reflexivity. rewrite !concat_res_map, !flat_map_map. cbn [fst snd].
    rewrite (concat_res_ext (fun x => create_objects d (hush_ns x)) (create_objects d)) by exact hush_create_objects.
    rewrite (concat_res_ext (fun x => mutate_namespace d o (hush_ns (fst x)) (hush_ns (snd x))) (fun x => mutate_namespace d o (fst x) (snd x))) by (intros x; apply hush_mutate_ns).
    rewrite (flat_map_ext (fun x => create_schema d (hush_ns x)) (create_schema d)) by reflexivity.
    rewrite (flat_map_ext (fun x => drop_schema d (hush_ns x)) (drop_schema d)) by reflexivity.
    rewrite (flat_map_ext (fun x => ns_add_constraints d (hush_ns x)) (ns_add_constraints d)) by (intros x; unfold ns_add_constraints; cbn; rewrite flat_map_map; reflexivity).
    rewrite (flat_map_ext (fun x => ns_drop_constraints (hush_ns x)) ns_drop_constraints) by (intros x; unfold ns_drop_constraints; cbn; rewrite flat_map_map; reflexivity).
    rewrite (flat_map_ext (fun x => drop_objects (hush_ns x)) drop_objects) by exact hush_drop_objects.
    reflexivity.
  Qed.
End Silent.

(** ** Sorting *)
Lemma visit_ext f g : (forall n, f n = g n) -> forall fuel path n st, visit f fuel path n st = visit g fuel path n st.
Proof.
  intros E. induction fuel as [|k IH]; intros path n st; [reflexivity|]. cbn [visit]. rewrite E. destruct (str_in n st); [reflexivity|]. destruct (str_in n path); [reflexivity|].
  match goal with |- (do x <- ?F _ st; _) = (do y <- ?G _ st; _) => assert (Go : forall ms st, F ms st = G ms st) end; [|now rewrite Go].
  induction ms as [|m ms IHm]; intros st'; [reflexivity|]. rewrite !IH. destruct (String.eqb m n); [apply IHm|]. destruct (visit g k (n :: path) m st'); [apply IHm|reflexivity].
Qed.
Lemma topo_ext f g : (forall n, f n = g n) -> forall nodes, topological_sort nodes f = topological_sort nodes g.
Proof.
  intros E nodes. unfold topological_sort. assert (G : forall fuel ns st, visit_all f fuel ns st = visit_all g fuel ns st); [|apply G].
  intros fuel. induction ns as [|n r IH]; intros st; [reflexivity|]. cbn [visit_all]. rewrite (visit_ext f g E). destruct (visit g fuel [] n st); [apply IH|reflexivity].
Qed.
Lemma hush_type_refs t : table_type_refs (hush_tab t) = table_type_refs t.
Proof. unfold table_type_refs. cbn. now rewrite flat_map_map. Qed.
Lemma hush_referenced n : referenced_namespaces (hush_ns n) = referenced_namespaces n.
Proof.
  unfold referenced_namespaces. cbn [n_structs n_tables hush_ns]. f_equal. f_equal. rewrite flat_map_map. apply flat_map_ext. intros t. rewrite hush_type_refs. reflexivity.
Qed.
Lemma hush_succ c n : ns_succ (hush c) n = ns_succ c n.
Proof.
  unfold ns_succ, hush. rewrite (get_map n_name hush_ns) by reflexivity. destruct (od_get n_name n c) as [x|]; [|reflexivity]. cbn [option_map]. rewrite hush_referenced. apply filter_ext. intros m. now apply mem_map.
Qed.
Definition res_map {A B} (f : A -> B) (r : res A) : res B := match r with Ok a => Ok (f a) | Err e => Err e end.
Lemma hush_sort c : cat_sort (hush c) = res_map hush (cat_sort c).
Proof.
  unfold cat_sort. rewrite (topo_ext (ns_succ (hush c)) (ns_succ c) (hush_succ c)). unfold od_keys, hush. rewrite (keys_map n_name hush_ns) by reflexivity. destruct (topological_sort (map n_name c) (ns_succ c)) as [ord|]; [|reflexivity]. cbn [bind].
  unfold od_reorder. assert (E : forall l, map_res (fun k => match od_get n_name k (map hush_ns c) with Some x => Ok x | None => Err "KeyError" end) l = res_map (map hush_ns) (map_res (fun k => match od_get n_name k c with Some x => Ok x | None => Err "KeyError" end) l)).
  { induction l as [|k l IH]; [reflexivity|]. cbn [map_res]. rewrite (get_map n_name hush_ns) by reflexivity. destruct (od_get n_name k c); [|reflexivity]. cbn [option_map bind]. rewrite IH. clear IH. destruct (map_res _ l); reflexivity. }
  rewrite E. destruct (map_res _ ord) as [items|]; [|reflexivity]. cbn [bind res_map]. rewrite (make_map n_name hush_ns) by reflexivity. reflexivity.
Qed.
Lemma hush_col_idem c : hush_col (hush_col c) = hush_col c.
Proof. reflexivity. Qed.
Lemma hush_idem c : hush (hush c) = hush c.
Proof.
  unfold hush. rewrite map_map. apply map_ext. intros n. unfold hush_ns. cbn. f_equal. rewrite map_map. apply map_ext. intros t. unfold hush_tab. cbn. f_equal. rewrite map_map. reflexivity.
Qed.
(** ** Mutation *)
Theorem hush_mutate_catalog d o s t : silent d -> res_map snd (mutate_catalog d o (hush s) (hush t)) = res_map snd (mutate_catalog d o s t).
Proof.
  intros Sd. unfold mutate_catalog. rewrite !hush_sort. destruct (cat_sort s) as [s'|]; [|reflexivity]. cbn [bind res_map]. destruct (cat_sort t) as [t'|]; [|reflexivity]. cbn [bind res_map]. rewrite (hush_sorted d Sd). destruct (mutate_sorted d o s' t'); reflexivity.
Qed.
