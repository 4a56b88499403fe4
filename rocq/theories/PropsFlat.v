(** C33: discovery of flat namespaces. *)
From Verif Require Import PyStr QuoteModel QuoteSpec QuoteProofs ObjectDict Types Objects SqlAst Ddl Mutate Flat FlatSpec.
Open Scope string_scope.
Open Scope list_scope.

Lemma in_namespace_some n t : in_namespace (Some n) t <-> starts_with (n ++ "__")%string t = true.
Proof.
  unfold in_namespace, like_pattern_of. rewrite like_literal_scan by (intros (x & E); discriminate E). rewrite <- like_pattern_spec. split.
  - intros (p & [= <-] & H). exact H.
  - intros H. exists (like_pattern n). auto.
Qed.
Lemma in_namespace_none t : in_namespace None t <-> ~ (exists a b, t = (a ++ "__" ++ b)%string).
Proof. cbn. now rewrite like_infix. Qed.
Lemma remove_prefix_app p r : remove_prefix p (p ++ r)%string = r.
Proof.
  unfold remove_prefix. assert (X : drop_prefix p (p ++ r)%string = Some r); [|now rewrite X].
  induction p as [|c p IH]; [reflexivity|]. cbn. rewrite Ascii.eqb_refl. exact IH.
Qed.
Lemma starts_local n t : starts_with (n ++ "__")%string t = true <-> exists r, t = local_id (Prefixed (Some n) r).
Proof. rewrite starts_with_spec. cbn [local_id]. split; intros (r & ->); exists r; [apply append_assoc|symmetry; apply append_assoc]. Qed.
Lemma local_start n r : starts_with (n ++ "__")%string (local_id (Prefixed (Some n) r)) = true.
Proof. apply starts_local. eauto. Qed.

(** Every discovered identifier stands for the very table whose name the query returned, so its columns and constraints
    are read from that table; for all names whatsoever. *)
Theorem C33_mysql_ids_name_the_tables : forall ns all out,
  answers (in_namespace ns) all out -> map local_id (mysql_ids ns out) = out.
Proof.
  intros ns all out [_ H]. unfold mysql_ids. rewrite map_map. rewrite <- (map_id out) at 2. apply map_ext_in. intros t I. apply H in I. destruct I as [_ I].
  destruct ns as [n|]; [|reflexivity]. apply in_namespace_some, starts_local in I. destruct I as (r & ->).
  assert (X : remove_prefix (n ++ "__")%string (local_id (Prefixed (Some n) r)) = r) by (cbn [local_id]; rewrite <- append_assoc; apply remove_prefix_app). now rewrite X.
Qed.
Print Assumptions C33_mysql_ids_name_the_tables.
Lemma split_local t : local_id (let '(n, i) := split_composite_id t in Prefixed n i) = t.
Proof. unfold split_composite_id. destruct (split_first t) as [[a b]|] eqn:E; [|reflexivity]. cbn [local_id]. symmetry. exact (split_first_some _ _ _ E). Qed.
Theorem C33_oracle_ids_name_the_tables : forall out, map local_id (oracle_ids out) = out.
Proof. intros out. unfold oracle_ids. rewrite map_map. rewrite <- (map_id out) at 2. apply map_ext. exact split_local. Qed.
Print Assumptions C33_oracle_ids_name_the_tables.

(** The server holds the tables [created], each under a namespace or under none, with names free of doubt.  Discovery of
    a namespace returns exactly the tables created under it, with their names. *)
Definition exactly (ids : list qid) (created : list (option string * string)) (ns : option string) : Prop :=
  NoDup ids /\ forall q, In q ids <-> exists id, q = Prefixed ns id /\ In (ns, id) created.
Definition table_names (created : list (option string * string)) : list string := map (fun q => local_id (Prefixed (fst q) (snd q))) created.

Lemma clear_safe q : clear_id q <-> flat_safe q.
Proof. destruct q as [[ns|] id]; reflexivity. Qed.
Lemma created_in created n id : (forall q, In q created -> clear_id q) -> clear_id (n, id) ->
  (In (local_id (Prefixed n id)) (table_names created) <-> In (n, id) created).
Proof.
  intros C CI. unfold table_names. rewrite in_map_iff. split.
  - intros ([n' id'] & E & I). cbn [fst snd] in E. destruct (flat_inj n' id' n id) as [-> ->]; [apply clear_safe, C, I|apply clear_safe, CI|exact E|exact I].
  - intros I. exists (n, id). auto.
Qed.
Lemma condition_clear created ns t : (forall q, In q created -> clear_id q) -> (forall n, ns = Some n -> clean n) ->
  In t (table_names created) /\ in_namespace ns t <-> exists id, t = local_id (Prefixed ns id) /\ In (ns, id) created.
Proof.
  intros C CN. split.
  - intros [I N]. apply in_map_iff in I. destruct I as ([n' id'] & <- & I). cbn [fst snd] in *. pose proof (proj1 (clear_safe _) (C _ I)) as S.
    destruct ns as [n|].
    + apply in_namespace_some, starts_local in N. destruct N as (r & E).
      destruct (flat_inj n' id' (Some n) r S (CN n eq_refl) E) as [-> ->]. eauto.
    + apply in_namespace_none in N. destruct n' as [n'|]; [|eauto]. exfalso. apply N. exists n', id'. reflexivity.
  - intros (id & -> & I). split; [apply in_map_iff; exists (ns, id); auto|]. destruct ns as [n|]; [apply in_namespace_some, local_start|].
    apply in_namespace_none. exact (C _ I).
Qed.

Theorem C33_mysql_isolated : forall created ns out,
  (forall q, In q created -> clear_id q) -> (forall n, ns = Some n -> clean n) ->
  answers (in_namespace ns) (table_names created) out -> exactly (mysql_ids ns out) created ns.
Proof.
  intros created ns out C CN A. pose proof (C33_mysql_ids_name_the_tables _ _ _ A) as L. destruct A as [ND H]. split.
  - apply (NoDup_map_inv local_id). now rewrite L.
  - assert (SH : forall q, In q (mysql_ids ns out) -> exists id, q = Prefixed ns id) by (intros q I; apply in_map_iff in I; destruct I as (t & <- & _); destruct ns; eauto).
    intros q. split.
    + intros I. destruct (SH q I) as (id & ->). exists id. split; [reflexivity|]. apply (in_map local_id) in I. rewrite L in I. apply H in I.
      apply (condition_clear created ns _ C CN) in I. destruct I as (id' & E & I).
      destruct ns as [n|]; cbn [local_id] in E; [apply append_inj_l in E; cbn in E; injection E as <-; exact I|subst; exact I].
    + intros (id & -> & I). assert (J : In (local_id (Prefixed ns id)) out) by (apply H, (condition_clear created ns _ C CN); eauto).
      rewrite <- L in J. apply in_map_iff in J. destruct J as (q' & E & J). destruct (SH q' J) as (id' & ->).
      destruct ns as [n|]; cbn [local_id] in E; [apply append_inj_l in E; cbn in E; injection E as <-; exact J|subst; exact J].
Qed.
Print Assumptions C33_mysql_isolated.
Theorem C33_oracle_isolated : forall created ns out,
  (forall q, In q created -> clear_id q) -> (forall n, ns = Some n -> clean n) ->
  (forall q, In q created -> oracle_visible (local_id (Prefixed (fst q) (snd q)))) ->
  answers (fun t => in_namespace ns t /\ oracle_visible t) (table_names created) out -> exactly (oracle_ids out) created ns.
Proof.
  intros created ns out C CN V [ND H]. pose proof (C33_oracle_ids_name_the_tables out) as L. split.
  - apply (NoDup_map_inv local_id). now rewrite L.
  - assert (H' : forall t, In t out <-> exists id, t = local_id (Prefixed ns id) /\ In (ns, id) created).
    { intros t. rewrite H, <- (condition_clear created ns t C CN). split; [tauto|]. intros [I N]. split; [exact I|]. split; [exact N|].
      apply in_map_iff in I. destruct I as (q & <- & I). exact (V q I). }
    intros q. unfold oracle_ids. rewrite in_map_iff. split.
    + intros (t & <- & I). apply H' in I. destruct I as (id & -> & I). exists id. split; [|exact I]. rewrite (flat_split ns id) by (apply clear_safe, C, I). reflexivity.
    + intros (id & -> & I). exists (local_id (Prefixed ns id)). split; [rewrite (flat_split ns id) by (apply clear_safe, C, I); reflexivity|]. apply H'. eauto.
Qed.
Print Assumptions C33_oracle_isolated.
(** Dropping a schema drops exactly the tables created under it. *)
Theorem C33_drop_schema_isolated : forall created ns, (forall q, In q created -> clear_id q) -> clean ns ->
  forall n id, In (n, id) created -> (dropped ns (local_id (Prefixed n id)) <-> n = Some ns).
Proof.
  intros created ns C CN n id I. unfold dropped.
  assert (X : In (local_id (Prefixed n id)) (table_names created)) by (apply in_map_iff; exists (n, id); auto).
  pose proof (condition_clear created (Some ns) (local_id (Prefixed n id)) C) as K. split.
  - intros D. destruct (proj1 (K ltac:(intros ? [= <-]; exact CN)) (conj X D)) as (id' & E & I').
    destruct (flat_inj n id (Some ns) id'); [apply clear_safe, C, I|apply clear_safe, C, I'|exact E|assumption].
  - intros ->. apply in_namespace_some, local_start.
Qed.
Print Assumptions C33_drop_schema_isolated.

(** Without the restriction on names: the namespace "a" takes the tables of "a__b" for its own, ... *)
Theorem C33_nested_names_refuted : exists created out,
  answers (in_namespace (Some "a")) (table_names created) out /\ ~ exactly (mysql_ids (Some "a") out) created (Some "a") /\
  ~ exactly (oracle_ids out) created (Some "a").
Proof.
  exists [(Some "a__b", "x")], ["a__b__x"]. split; [|split].
  - split; [repeat constructor; intros []|]. intros t. split; [|tauto]. intros [<-|[]]. split; [now left|]. apply in_namespace_some. reflexivity.
  - intros [_ H]. destruct (proj1 (H (Prefixed (Some "a") "b__x")) (or_introl eq_refl)) as (id & _ & [E|[]]). discriminate E.
  - intros [_ H]. destruct (proj1 (H (Prefixed (Some "a") "b__x")) (or_introl eq_refl)) as (id & _ & [E|[]]). discriminate E.
Qed.
Print Assumptions C33_nested_names_refuted.
(** ... drops them along with its own, ... *)
Theorem C33_drop_schema_nested_refuted : dropped "a" (local_id (Prefixed (Some "a__b") "x")).
Proof. apply in_namespace_some. reflexivity. Qed.
Print Assumptions C33_drop_schema_nested_refuted.
(** ... and so does synchronization, which drops what the target does not have: the statement names the table of the
    other namespace. *)
Theorem C33_synchronize_drops_foreign_table_refuted : exists tables (t : table) s' t' l,
  answers (in_namespace (Some "a")) (table_names [(Some "a", "own"); (Some "a__b", "x")]) tables /\
  t_name t = Prefixed (Some "a") "own" /\
  mutate_catalog DMySQL default_options
    [Ns "" [] [] (map (fun q => Tab q (t_columns t) (t_pk t) [] None None) (mysql_ids (Some "a") tables))] [Ns "" [] [] [t]] = Ok (s', t', l) /\
  exists q, In (SDropTable q) l /\ local_id q = local_id (Prefixed (Some "a__b") "x").
Proof.
  set (t := Tab (Prefixed (Some "a") "own") [Col "id" (TInt 4%Z true None None) false None false None] ["id"] [] None None).
  exists ["a__own"; "a__b__x"], t.
  destruct (mutate_catalog DMySQL default_options [Ns "" [] [] (map (fun q => Tab q (t_columns t) (t_pk t) [] None None) (mysql_ids (Some "a") ["a__own"; "a__b__x"]))] [Ns "" [] [] [t]]) as [[[s' t'] l]|] eqn:E;
    [|exfalso; revert E; vm_compute; discriminate].
  exists s', t', l. split; [|split; [reflexivity|split; [reflexivity|]]].
  - split; [repeat (constructor; [simpl; intuition discriminate|]); constructor|]. intros x. split; [|tauto]. intros I. split; [exact I|]. apply in_namespace_some. destruct I as [<-|[<-|[]]]; reflexivity.
  - exists (Prefixed (Some "a") "b__x"). split; [|reflexivity].
    apply (f_equal (fun r => match r with Ok (_, _, l) => l | Err _ => [] end)) in E. rewrite <- E. vm_compute. auto.
Qed.
Print Assumptions C33_synchronize_drops_foreign_table_refuted.
(** Oracle does not find tables with a dollar sign in their names. *)
Theorem C33_oracle_dollar_refuted : exists created, (forall q, In q created -> clear_id q) /\
  forall out, answers (fun t => in_namespace (Some "a") t /\ oracle_visible t) (table_names created) out -> ~ exactly (oracle_ids out) created (Some "a").
Proof.
  exists [(Some "a", "x$")]. split.
  - intros q [<-|[]]. apply clear_safe. apply split_composite_iff with (id := ""). reflexivity.
  - intros out [_ H] [_ X]. assert (Y : In (Prefixed (Some "a") "x$") (oracle_ids out)).
    + apply X. exists "x$". split; [reflexivity|now left].
    + assert (N : out = []); [|now rewrite N in Y]. clear Y X. destruct out as [|t out]; [reflexivity|]. exfalso. destruct (proj1 (H t) (or_introl eq_refl)) as ([<-|[]] & _ & V). discriminate V.
Qed.
Print Assumptions C33_oracle_dollar_refuted.

(** Namespaces with similar names, and one with characters that are special in patterns. *)
Definition ex_created : list (option string * string) := [(Some "a", "t"); (Some "a_b", "t"); (Some "ab", "c__d"); (None, "t"); (Some "x%", "t")].
Example C33_ex : (forall q, In q ex_created -> clear_id q) /\ clean "a" /\ answers (in_namespace (Some "a")) (table_names ex_created) ["a__t"].
Proof.
  split; [|split].
  - intros q [<-|[<-|[<-|[<-|[<-|[]]]]]]; apply clear_safe; try (apply split_composite_iff with (id := ""); reflexivity).
  - apply split_composite_iff with (id := ""). reflexivity.
  - split; [repeat constructor; intros []|]. intros t. rewrite in_namespace_some. split.
    + intros [<-|[]]. split; [now left|reflexivity].
    + intros [[<-|[<-|[<-|[<-|[<-|[]]]]]] E]; try discriminate E. now left.
Qed.
