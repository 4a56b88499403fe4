(** Proofs for C60: MySQL and Oracle. *)
From Verif Require Import PyStr QuoteModel QuoteSpec QuoteProofs Types Objects SqlAst Ddl DbSpec SqlText DropSchema DropSpec DropProofs1 DropProofs2.
From Verif Require Import DiscoverProofs.
From stdpp Require Import gmap strings.
From Coq Require Import Permutation.
Open Scope string_scope.

Lemma like_literal_quote ns : like_literal ns = quote (like_pattern ns).
Proof. unfold quote, like_literal, like_pattern. rewrite escape_like_split. unfold replace1. rewrite translate_app, !append_assoc. reflexivity. Qed.
Lemma like_no_backslash ns : has_char BS ns = false -> has_char BS (like_pattern ns) = false.
Proof.
  intros H. unfold like_pattern. rewrite has_char_app. apply orb_false_iff. split; [|reflexivity]. unfold like_escaped. induction ns as [|c ns IH]; [reflexivity|]. cbn in H. apply orb_false_iff in H as [H1 H2].
  cbn [translate]. rewrite has_char_app, (IH H2), orb_false_r. unfold like_esc_char. destruct (_ || _)%bool; cbn; rewrite H1; reflexivity.
Qed.
Lemma literal_my s : has_char BS s = false -> literal_value DMySQL (quote s) = Some s.
Proof.
  intros H. pose proof (mysql_quote_plain s "" H (not_begins_nil QT)) as Q. rewrite append_nil_r in Q. unfold mysql_literal, esc_literal in Q. unfold literal_value.
  destruct (quote s) as [|c r]; [discriminate|]. destruct (Ascii.eqb c QT); [|discriminate]. cbn [scan_lit]. now rewrite Q.
Qed.
Lemma like_prefixed ns t : like "~" (like_pattern ns) t <-> prefixed_by ns ("", t).
Proof. rewrite like_pattern_spec, prefixed_starts. simpl. tauto. Qed.

Section Flat.
  Context (ns : string) (others : list string) (d : dialect) (D : db).
  Hypothesis LV : literal_value d (like_literal ns) = Some (like_pattern ns).
  Hypothesis NO : d = DOracle -> forall t, In t others -> ~ exists r, t = ns ++ "__" ++ r.
  Lemma flat_answer_exists : exists out, names_answer d others (TablesLike (like_literal ns)) D out.
  Proof.
    destruct (@lists_exist string _ (fun t => has_table D ("", t) /\ prefixed_by ns ("", t)) _ (map (fun p => snd (fst p)) (map_to_list (db_objs D)))) as (own & ND & IN).
    { intros x [T _]. now apply (table_names_bound D ""). }
    exists own. cbn [names_answer]. exists (like_pattern ns), own, []. split; [exact LV|]. split; [now rewrite app_nil_r|]. split.
    - split; [exact ND|]. intros x. now rewrite IN, like_prefixed.
    - intros t. split; [intros []|]. intros (E & I & L). destruct (NO E t I). apply like_prefixed in L as [_ L]. exact L.
  Qed.
  Lemma flat_answer out : names_answer d others (TablesLike (like_literal ns)) D out ->
    List.NoDup out /\ forall t, In t out <-> has_table D ("", t) /\ prefixed_by ns ("", t).
  Proof.
    intros (p & own & oth & E & PM & [ND IN] & OT). rewrite LV in E. injection E as <-. assert (oth = []) as ->.
    { destruct oth as [|t r]; [reflexivity|]. exfalso. destruct (proj1 (OT t) (or_introl eq_refl)) as (E & I & L). apply (NO E t I). apply like_prefixed in L as [_ L]. exact L. }
    rewrite app_nil_r in PM. split; [eapply Permutation_NoDup; [symmetry; exact PM|exact ND]|]. intros t. rewrite <- like_prefixed, <- IN. split; apply Permutation_in; [exact PM|now symmetry].
  Qed.
End Flat.

(** ** MySQL *)
Lemma drop_all ks : forall D, (forall k, In k ks -> has_table D k \/ no_table D k) ->
  exists D1, drop_at_once ks D D1 /\ db_schemas D1 = db_schemas D /\ forall k, db_objs D1 !! k = if decide (k ∈ ks) then None else db_objs D !! k.
Proof.
  induction ks as [|k ks IH]; intros D T.
  - exists D. cbn [drop_at_once]. split; [reflexivity|]. split; [reflexivity|]. intros k. destruct (decide _) as [I|]; [inversion I|reflexivity].
  - destruct (IH (without_table k D)) as (D2 & X2 & S2 & K2).
    + intros i Ii. specialize (T i (or_intror Ii)). unfold has_table, no_table, without_table in *. cbn [db_objs].
      destruct (decide (k = i)) as [<-|N]; [right; apply lookup_delete|]. rewrite lookup_delete_ne by exact N. exact T.
    + exists D2. cbn [drop_at_once]. split; [exists (without_table k D); split; [split; [apply T; now left|reflexivity]|exact X2]|]. split; [exact S2|].
      intros i. rewrite K2. unfold without_table. cbn [db_objs]. destruct (decide (i ∈ ks)) as [I|NI], (decide (i ∈ k :: ks)) as [I'|NI']; rewrite ?elem_of_cons in *; auto; try tauto.
      * destruct I' as [->|]; [apply lookup_delete|contradiction].
      * apply lookup_delete_ne. intros ->. tauto.
Qed.
Definition without_prefix (ns : string) (D : db) : db := Db (db_schemas D) (others_only (prefixed_by ns) D).
Lemma prefix_gone_ok ns D : db_ok D -> ~ foreign_key_into (prefixed_by ns) D -> (forall (k : okey) o, db_objs D !! k = Some o -> prefixed_by ns k -> has_table D k) -> db_ok (without_prefix ns D).
Proof.
  intros OK NF TB. apply ok_without; auto.
  - intros (i & t & m & c & q & _ & L & C & I & E). destruct (OK i _ L) as [[O _] _]. destruct (O m c C q I) as (x & Lx & Tx). destruct (TB _ _ Lx E) as (y & Ly). rewrite Ly in Lx. injection Lx as <-. discriminate.
  - intros (i & ms & com & m & ty & q & _ & L & C & I & E). destruct (OK i _ L) as [O _]. destruct (O m ty C q I) as (x & Lx & Tx). destruct (TB _ _ Lx E) as (y & Ly). rewrite Ly in Lx. injection Lx as <-. discriminate.
  - intros k o L _. apply (OK k o L).
Qed.
Lemma mysql_drops ns others D : db_ok D -> has_char BS ns = false -> ~ foreign_key_into (prefixed_by ns) D ->
  (forall (k : okey) o, db_objs D !! k = Some o -> prefixed_by ns k -> has_table D k) -> leads_to DMySQL others (conn_drop_schema DMySQL ns) D (without_prefix ns D).
Proof.
  intros OK B NF TB. cbn [conn_drop_schema]. unfold mysql_drop_schema. cbn [leads_to].
  assert (LV : literal_value DMySQL (like_literal ns) = Some (like_pattern ns)) by (rewrite like_literal_quote; apply literal_my, like_no_backslash, B).
  split; [now apply flat_answer_exists|]. intros ts A. destruct (flat_answer ns others DMySQL D LV ltac:(discriminate) ts A) as [ND IN].
  destruct (drop_all (map key_of (map (Prefixed None) ts)) D) as (D1 & X1 & S1 & K1).
  { intros k I. apply in_map_iff in I as (q & <- & I). apply in_map_iff in I as (t & <- & I). left. now apply IN. }
  assert (E1 : without_prefix ns D = D1).
  { apply db_eq; [now rewrite S1|]. intros k. rewrite K1. unfold without_prefix. cbn [db_objs]. destruct (decide _) as [I|NI].
    - apply elem_of_list_In, in_map_iff in I as (q & <- & I). apply in_map_iff in I as (t & <- & I). apply map_filter_lookup_None. right. intros x _ NP. apply NP. now apply IN.
    - destruct (db_objs D !! k) as [o|] eqn:L; [|apply map_filter_lookup_None; now left]. apply map_filter_lookup_Some. split; [exact L|]. simpl. intros P. apply NI.
      apply elem_of_list_In, in_map_iff. destruct k as [a b]. pose proof (proj1 P) as Ea. simpl in Ea. subst a. exists (Prefixed None b). split; [reflexivity|]. apply in_map, IN. split; [|exact P]. eapply TB; eauto. }
  destruct ts as [|t ts]; [cbn [map drop_at_once] in X1; congruence|]. cbn [leads_to]. exists D1. split; [|exact E1]. cbn [effects effect]. exists D1. split; [exact X1|]. split; [|reflexivity].
  rewrite <- E1. now apply prefix_gone_ok.
Qed.

(** ** Oracle *)
Lemma without_keys_cons (P : okey -> Prop) `{forall k, Decision (P k)} t n x : dt_cons (match without_keys P (OTable t) with OTable u => u | _ => t end) !! n = Some x <->
  dt_cons t !! n = Some x /\ ~ refers_to P x.
Proof. cbn. rewrite map_filter_lookup_Some. reflexivity. Qed.
Lemma cascade_ok k D : db_ok D -> has_table D k -> db_ok (cascade_table k D).
Proof.
  intros OK (tk & Lk) i o L. unfold cascade_table in L. cbn [db_objs] in L. rewrite lookup_fmap in L. destruct (delete k (db_objs D) !! i) as [o0|] eqn:E; [|discriminate]. injection L as <-.
  apply lookup_delete_Some in E as [N E]. destruct (OK i o0 E) as [O S]. split; [|exact S].
  assert (TE : forall q, type_exists D q -> type_exists (cascade_table k D) q).
  { intros q (x & Lx & Tx). exists x. unfold cascade_table. cbn [db_objs]. rewrite lookup_fmap. destruct (decide (k = key_of q)) as [Eq|Nq]; [rewrite <- Eq, Lk in Lx; injection Lx as <-; discriminate|].
    rewrite lookup_delete_ne by exact Nq. rewrite Lx. split; [|exact Tx]. cbn. destruct x; [reflexivity|reflexivity|discriminate]. }
  destruct o0 as [vs|ms com|t]; cbn [obj_ok without_keys] in *; [exact Logic.I|intros m ty Hm q Iq; apply TE; eapply O; eauto|]. destruct O as [O1 O2]. split.
  - intros m c Hm q Iq. apply TE. eapply O1; eauto.
  - cbn [dt_cons dt_cols]. intros m x Hm. apply map_filter_lookup_Some in Hm as [Hm R]. cbn [snd] in R. destruct (O2 m x Hm) as [F OC]. split; [|exact OC].
    destruct x as [|f cs rt rc| |]; cbn [fk_ok] in *; auto. destruct F as [E' (y & Ly & U)]. split; [exact E'|]. cbn [refers_to] in R.
    unfold cascade_table. cbn [db_objs]. rewrite lookup_fmap, lookup_delete_ne by exact R. rewrite Ly. cbn. eexists. split; [reflexivity|]. cbn [dt_pk dt_cons].
    destruct U as [U|(u & v & U)]; [now left|right]. exists u, v. apply map_filter_lookup_Some. split; [exact U|]. cbn. tauto.
Qed.
(** the tables of the prefix, and the foreign keys to them *)
Definition without_prefix_keys (ns : string) (D : db) : db := Db (db_schemas D) (without_keys (prefixed_by ns) <$> others_only (prefixed_by ns) D).
Lemma filter_filter_cons (P Q R : okey -> Prop) `{forall k, Decision (P k)} `{forall k, Decision (Q k)} `{forall k, Decision (R k)} o :
  (forall k, R k <-> P k \/ Q k) -> without_keys Q (without_keys P o) = without_keys R o.
Proof.
  intros E. destruct o as [|ms com|t]; [reflexivity|reflexivity|]. cbn. f_equal. f_equal. apply map_eq. intros i.
  assert (X : forall x, refers_to R x <-> refers_to P x \/ refers_to Q x) by (intros [|f cs rt rc| |]; cbn; try tauto; apply E).
  destruct (dt_cons t !! i) as [x|] eqn:L.
  - destruct (decide (refers_to R x)) as [Y|Y].
    + rewrite (proj2 (map_filter_lookup_None _ (dt_cons t) i)) by (right; intros y Ly; rewrite L in Ly; injection Ly as <-; cbn; tauto).
      apply map_filter_lookup_None. right. intros y Ly. apply map_filter_lookup_Some in Ly as [Ly NP]. rewrite L in Ly. injection Ly as <-. cbn in *. apply X in Y. tauto.
    + rewrite (proj2 (map_filter_lookup_Some _ (dt_cons t) i x)) by auto. rewrite X in Y. apply map_filter_lookup_Some. split; [apply map_filter_lookup_Some; split; [exact L|]|]; cbn; tauto.
  - rewrite (proj2 (map_filter_lookup_None _ (dt_cons t) i)) by auto. apply map_filter_lookup_None. left. apply map_filter_lookup_None. auto.
Qed.
Lemma without_keys_none (P : okey -> Prop) `{forall k, Decision (P k)} o : (forall k, ~ P k) -> without_keys P o = o.
Proof.
  intros N. destruct o as [|ms com|[a b c e]]; [reflexivity|reflexivity|]. cbn. f_equal. f_equal. apply filter_all. intros i x _. cbn. intros R. destruct x; try contradiction. exact (N _ R).
Qed.
Lemma without_keys_ext (P Q : okey -> Prop) `{forall k, Decision (P k)} `{forall k, Decision (Q k)} o : (forall k, P k <-> Q k) -> without_keys P o = without_keys Q o.
Proof.
  intros E. destruct o as [|ms com|t]; [reflexivity|reflexivity|]. cbn. f_equal. f_equal. apply map_filter_ext. intros i x _. cbn.
  assert (X : refers_to P x <-> refers_to Q x) by (destruct x; cbn; try tauto; apply E). tauto.
Qed.
Lemma cascade_all ts : forall D, db_ok D -> List.NoDup ts -> (forall t, In t ts -> has_table D ("", t)) ->
  exists D1, effects DOracle (map (fun t => DropTableCascade (Prefixed None t)) ts) D D1 /\ db_ok D1 /\ db_schemas D1 = db_schemas D /\
    forall k : okey, db_objs D1 !! k = if decide (k ∈ map (pair "") ts) then None else without_keys (fun i => i ∈ map (pair "") ts) <$> (db_objs D !! k).
Proof.
  induction ts as [|t ts IH]; intros D OK ND T.
  - exists D. cbn [map effects]. split; [reflexivity|]. split; [exact OK|]. split; [reflexivity|]. intros k. destruct (decide _) as [I|]; [inversion I|].
    destruct (db_objs D !! k) as [o|]; [|reflexivity]. cbn. f_equal. symmetry. apply without_keys_none. intros i I. inversion I.
  - inversion ND as [|? ? NI ND']; subst. pose proof (T t (or_introl eq_refl)) as Tt. pose proof (cascade_ok ("", t) D OK Tt) as OK1.
    destruct (IH (cascade_table ("", t) D) OK1 ND') as (D2 & X2 & OK2 & S2 & K2).
    + intros u Iu. destruct (T u (or_intror Iu)) as (x & Lx). unfold has_table, cascade_table. cbn [db_objs]. rewrite lookup_fmap, lookup_delete_ne by congruence. rewrite Lx. cbn. eauto.
    + exists D2. cbn [map effects]. split; [exists (cascade_table ("", t) D); split; [split; [exact Tt|reflexivity]|split; [exact OK1|exact X2]]|]. split; [exact OK2|]. split; [exact S2|].
      intros k. rewrite K2. unfold cascade_table. cbn [db_objs]. rewrite lookup_fmap.
      destruct (decide (k ∈ map (pair "") ts)) as [I|NI1], (decide (k ∈ ("", t) :: map (pair "") ts)) as [I'|NI']; rewrite ?elem_of_cons in *; auto; try tauto.
      * destruct I' as [->|]; [|contradiction]. now rewrite lookup_delete.
      * rewrite lookup_delete_ne by (intros <-; tauto). destruct (db_objs D !! k) as [o|]; [|reflexivity]. cbn. f_equal. apply filter_filter_cons. intros i. rewrite elem_of_cons. split; intros [->|]; auto.
Qed.
Lemma oracle_drops ns others D : db_ok D -> (forall t, In t others -> ~ exists r, t = ns ++ "__" ++ r) ->
  (forall (k : okey) o, db_objs D !! k = Some o -> prefixed_by ns k -> has_table D k) -> leads_to DOracle others (conn_drop_schema DOracle ns) D (without_prefix_keys ns D).
Proof.
  intros OK NO TB. cbn [conn_drop_schema]. unfold oracle_drop_schema. cbn [leads_to].
  assert (LV : literal_value DOracle (like_literal ns) = Some (like_pattern ns)) by (rewrite like_literal_quote; apply literal_std; auto).
  split; [now apply flat_answer_exists|]. intros ts A. destruct (flat_answer ns others DOracle D LV (fun _ => NO) ts A) as [ND IN].
  destruct (cascade_all ts D OK ND (fun t I => proj1 (proj1 (IN t) I))) as (D1 & X1 & OK1 & S1 & K1).
  assert (M : forall k o, db_objs D !! k = Some o -> (k ∈ map (pair "") ts <-> prefixed_by ns k)).
  { intros k o L. rewrite elem_of_list_In, in_map_iff. split; [intros (t & <- & I); now apply IN|]. intros P. destruct k as [a b]. pose proof (proj1 P) as Ea. simpl in Ea. subst a. exists b. split; [reflexivity|]. apply IN. split; [eapply TB; eauto|exact P]. }
  assert (E1 : without_prefix_keys ns D = D1).
  { apply db_eq; [now rewrite S1|]. intros k. rewrite K1. unfold without_prefix_keys, others_only. cbn [db_objs]. rewrite lookup_fmap. destruct (db_objs D !! k) as [o|] eqn:L.
    - destruct (decide (k ∈ map (pair "") ts)) as [I|NI].
      + rewrite (proj2 (map_filter_lookup_None _ (db_objs D) k)); [reflexivity|]. right. intros x _ NP. apply NP. now apply (M k o L).
      + rewrite (proj2 (map_filter_lookup_Some _ (db_objs D) k o)); [|split; [exact L|]; simpl; intros P; apply NI; now apply (M k o L)]. cbn. f_equal.
        (* foreign keys refer to tables that exist *)
        destruct o as [|ms com|t]; [reflexivity|reflexivity|]. cbn. f_equal. f_equal. apply map_filter_ext. intros i x Lx. cbn.
        assert (X : refers_to (prefixed_by ns) x <-> refers_to (fun i => i ∈ map (pair "") ts) x); [|tauto].
        destruct x as [|f cs rt rc| |]; cbn; try tauto. destruct (OK k _ L) as [[_ O] _]. destruct (O i _ Lx) as [[_ (y & Ly & _)] _]. symmetry. exact (M _ _ Ly).
    - rewrite (proj2 (map_filter_lookup_None _ (db_objs D) k)) by now left. cbn. now destruct (decide _). }
  destruct ts as [|t ts]; [cbn [map effects] in X1; congruence|]. cbn [leads_to]. exists D1. split; [exact X1|exact E1].
Qed.
Lemma keys_kept ns D : ~ foreign_key_into (prefixed_by ns) D -> without_prefix_keys ns D = without_prefix ns D.
Proof.
  intros NF. apply db_eq; [reflexivity|]. intros k. unfold without_prefix_keys, without_prefix. cbn [db_objs]. rewrite lookup_fmap.
  destruct (others_only (prefixed_by ns) D !! k) as [o|] eqn:E; [|reflexivity]. apply others_lookup in E as [E N]. cbn. f_equal.
  destruct o as [|ms com|[a b c e]]; [reflexivity|reflexivity|]. cbn. f_equal. f_equal. apply filter_all. intros i x L R. destruct x as [|f cs rt rc| |]; try contradiction.
  apply NF. do 7 eexists. split; [exact N|]. eauto.
Qed.
