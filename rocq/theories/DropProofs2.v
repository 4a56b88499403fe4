(** Proofs for C60: PostgreSQL and SQL Server. *)
From Verif Require Import PyStr QuoteModel QuoteSpec QuoteProofs Types Objects SqlAst Ddl DbSpec SqlText DropSchema DropSpec DropProofs1.
From stdpp Require Import gmap strings.
From Coq Require Import Permutation.
Open Scope string_scope.

Lemma filter_all {V} (P : string * V -> Prop) `{forall x, Decision (P x)} (m : gmap string V) : (forall i x, m !! i = Some x -> P (i, x)) -> filter P m = m.
Proof.
  intros A. apply map_eq. intros i. destruct (m !! i) as [x|] eqn:E; [apply map_filter_lookup_Some; auto|apply map_filter_lookup_None; auto].
Qed.
Lemma forallb_all {A} (f : A -> bool) l : (forall x, In x l -> f x = true) -> forallb f l = true.
Proof. intros F. apply forallb_forall. exact F. Qed.

(** ** PostgreSQL *)
(** primary keys of the database are on columns of the table (the engine does not allow others) *)
Definition keys_exist (D : db) : Prop := forall k t n, db_objs D !! k = Some (OTable t) -> In n (dt_pk t) -> is_Some (dt_cols t !! n).
Section Independent.
  Context (n : string) (D : db) (OK : db_ok D).
  Hypothesis NF : ~ foreign_key_into (in_schema n) D.
  Hypothesis NC : ~ column_made_of (in_schema n) D.
  Hypothesis NM : ~ member_made_of (in_schema n) D.
  Lemma schema_gone_ok : db_ok (without_schema n D).
  Proof.
    rewrite without_schema_is. apply ok_without; auto. intros k o L NP. apply schema_ok_minus; [apply (OK k o L)|exact NP].
  Qed.
  Lemma refs_kept k o : keys_exist D -> db_objs D !! k = Some o -> fst k <> n -> without_schema_refs n o = o.
  Proof.
    intros KE L N. destruct o as [vs|ms com|t]; cbn [without_schema_refs]; [reflexivity| |].
    - f_equal. apply filter_all. intros i x E (q & Iq & Eq). apply NM. unfold member_made_of. do 6 eexists. split; [exact N|]. eauto.
    - assert (X : filter (fun p : string * dbcol => ~ made_of n (dc_type p.2)) (dt_cols t) = dt_cols t).
      { apply filter_all. intros i x E (q & Iq & Eq). apply NC. unfold column_made_of. do 5 eexists. split; [exact N|]. eauto. }
      rewrite X. rewrite (forallb_all _ (dt_pk t)) by (intros x Ix; apply bool_decide_eq_true; eapply KE; eauto).
      rewrite filter_all; [now destruct t|]. intros i x E. split.
      + intros R. destruct x as [|f cs rt rc| |]; try contradiction. cbn in R. apply NF. unfold foreign_key_into. do 7 eexists. split; [exact N|]. eauto.
      + apply forallb_all. intros y Iy. apply bool_decide_eq_true. destruct (OK k _ L) as [[_ O] _]. eapply O; eauto.
  Qed.
  Lemma pg_drops others : n <> "" -> keys_exist D -> leads_to DPg others (conn_drop_schema DPg n) D (without_schema n D).
  Proof.
    intros N KE. cbn [conn_drop_schema]. unfold base_drop_schema. destruct n as [|c r] eqn:En; [congruence|]. rewrite <- En in *. cbn [leads_to].
    exists (without_schema n D). split; [|reflexivity]. cbn [effects]. exists (without_schema n D). split; [|split; [exact schema_gone_ok|reflexivity]].
    cbn [effect]. destruct (decide _) as [I|NI]; [|now apply without_missing]. apply db_eq; [reflexivity|]. intros k. unfold without_schema, cascade_schema. cbn [db_objs].
    rewrite lookup_fmap. destruct (filter (fun p : okey * dbobj => fst (fst p) <> n) (db_objs D) !! k) as [o|] eqn:E; [|reflexivity]. cbn [fmap option_fmap option_map].
    apply map_filter_lookup_Some in E as [E Nk]. f_equal. symmetry. now apply (refs_kept k).
  Qed.
End Independent.

(** ** SQL Server *)
Lemma exec_drop_key n t c D : has_foreign_key D (n, t) c -> db_ok D -> exists D1,
  exec eng_mssql (SAlterTable (Qualified (Some n) t) [ADropConstraint c]) D = Some D1 /\ db_ok D1 /\ db_schemas D1 = db_schemas D /\
  (forall k, k <> (n, t) -> db_objs D1 !! k = db_objs D !! k) /\ has_table D1 (n, t) /\
  forall t' c', has_foreign_key D1 (n, t') c' <-> has_foreign_key D (n, t') c' /\ (t', c') <> (t, c).
Proof.
  intros (tb & f & cs & rt & rc & L & C) OK. cbn [exec]. unfold upd_table, key_of. cbn [scope_id local_id]. change (default "" (Some n), t) with (n, t). rewrite L. cbn [exec_actions exec_action].
  unfold exec_drop_constraint. rewrite C. cbn [mbind option_bind]. eexists. split; [reflexivity|]. set (tb' := DbTab _ _ _ _).
  assert (LK : forall k, db_objs (set_obj (n, t) (Some (OTable tb')) D) !! k = if decide (k = (n, t)) then Some (OTable tb') else db_objs D !! k).
  { intros k. unfold set_obj. cbn [db_objs]. destruct (decide (k = (n, t))) as [->|Nk]; [apply lookup_partial_alter|apply lookup_partial_alter_ne; auto]. }
  assert (TE : forall q, type_exists D q -> type_exists (set_obj (n, t) (Some (OTable tb')) D) q).
  { intros q (x & Lx & Tx). exists x. split; [|exact Tx]. rewrite LK. destruct (decide _) as [E|]; [|exact Lx]. rewrite E in Lx. rewrite L in Lx. injection Lx as <-. discriminate Tx. }
  assert (FK : forall k, fk_ok D k -> fk_ok (set_obj (n, t) (Some (OTable tb')) D) k).
  { intros [|f' cs' rt' rc'| |]; cbn [fk_ok]; auto. intros [E (x & Lx & U)]. split; [exact E|]. rewrite LK. destruct (decide _) as [Ek|]; [|eauto].
    rewrite Ek in Lx. rewrite L in Lx. injection Lx as <-. exists tb'. split; [reflexivity|]. destruct U as [U|(m & u & U)]; [now left|right]. exists m, u.
    subst tb'. cbn [dt_cons]. rewrite lookup_delete_ne; [exact U|]. intros ->. congruence. }
  split; [|split; [reflexivity|split; [|split]]].
  - intros k o Lo. rewrite LK in Lo. destruct (decide _) as [->|Nk].
    + injection Lo as <-. destruct (OK _ _ L) as [[O1 O2] S]. split; [|exact S]. split.
      * intros m x Hm q Iq. apply TE. eapply O1; eauto.
      * intros m x Hm. subst tb'. cbn [dt_cons dt_cols] in *. apply lookup_delete_Some in Hm as [_ Hm]. destruct (O2 m x Hm) as [F OC]. split; [now apply FK|exact OC].
    + destruct (OK k o Lo) as [O S]. split; [|exact S]. destruct o as [|ms com|x]; cbn [obj_ok] in *; auto.
      * intros m ty Hm q Iq. apply TE. eapply O; eauto.
      * destruct O as [O1 O2]. split; [intros m y Hm q Iq; apply TE; eapply O1; eauto|]. intros m y Hm. destruct (O2 m y Hm). split; auto.
  - intros k Nk. rewrite LK. destruct (decide _); congruence.
  - exists tb'. rewrite LK. now destruct (decide _).
  - intros t' c'. unfold has_foreign_key. rewrite LK. destruct (decide _) as [E|Nk].
    + injection E as ->. split.
      * intros (x & a & b & e & g & X & Y). injection X as <-. subst tb'. cbn [dt_cons] in Y. apply lookup_delete_Some in Y as [Y1 Y]. split; [do 5 eexists; eauto|congruence].
      * intros [(x & a & b & e & g & X & Y) NE]. rewrite L in X. injection X as <-. exists tb'. do 4 eexists. split; [reflexivity|]. subst tb'. cbn [dt_cons].
        rewrite lookup_delete_ne; [exact Y|congruence].
    + split; [|now intros [X _]]. intros X. split; [exact X|congruence].
Qed.
Lemma drop_keys n cs : forall D, db_ok D -> List.NoDup cs -> (forall p, In p cs -> has_foreign_key D (n, fst p) (snd p)) ->
  exists D1, effects DMSSQL (map (fun p => DropKey (Qualified (Some n) (fst p)) (snd p)) cs) D D1 /\ db_ok D1 /\ db_schemas D1 = db_schemas D /\
    (forall k : okey, fst k <> n -> db_objs D1 !! k = db_objs D !! k) /\ (forall k, db_objs D1 !! k = db_objs D !! k \/ has_table D k /\ has_table D1 k) /\
    (forall t c, has_foreign_key D1 (n, t) c <-> has_foreign_key D (n, t) c /\ ~ In (t, c) cs).
Proof.
  induction cs as [|[t c] cs IH]; intros D OK ND F.
  - exists D. cbn [map effects]. split; [reflexivity|]. split; [exact OK|]. split; [reflexivity|]. split; [reflexivity|]. split; [auto|]. intros t c. simpl. tauto.
  - inversion ND as [|? ? NI ND']; subst. destruct (exec_drop_key n t c D (F (t, c) (or_introl eq_refl)) OK) as (D1 & X & OK1 & S1 & K1 & T1 & F1).
    destruct (IH D1 OK1 ND') as (D2 & X2 & OK2 & S2 & K2 & T2 & F2).
    { intros p Ip. apply F1. split; [apply F; now right|]. intros E. apply NI. rewrite <- E. now destruct p. }
    exists D2. cbn [map effects fst snd]. split; [eauto|]. split; [exact OK2|]. split; [congruence|]. split; [|split].
    + intros k Nk. rewrite K2 by exact Nk. apply K1. intros ->. now apply Nk.
    + intros k. destruct (decide (k = (n, t))) as [->|Nk].
      * right. destruct (F (t, c) (or_introl eq_refl)) as (tb & ? & ? & ? & ? & L & _). split; [now exists tb|]. destruct (T2 (n, t)) as [E|[_ E]]; [|exact E].
        destruct T1 as (y & T1). exists y. now rewrite E.
      * destruct (T2 k) as [E|[E1 E2]]; [left; rewrite E; now apply K1|right]. split; [|exact E2]. destruct E1 as (x & E1). exists x. rewrite <- K1; auto.
    + intros t' c'. rewrite F2, F1. simpl. split; [intros [[A B] C]; split; [exact A|intros [E|E]; [now apply B|now apply C]]|].
      intros [A B]. split; [split; [exact A|]|]; intros E; apply B; auto.
Qed.

(** no table refers to a table of the schema *)
Definition unreferred (n : string) (D : db) : Prop :=
  forall k t m f cs rt rc, db_objs D !! k = Some (OTable t) -> dt_cons t !! m = Some (CForeign f cs rt rc) -> fst (key_of rt) <> n.
Lemma without_table_is k D : without_table k D = Db (db_schemas D) (others_only (eq k) D).
Proof.
  unfold without_table. f_equal. apply map_eq. intros i. destruct (decide (k = i)) as [<-|N].
  - rewrite lookup_delete. symmetry. apply map_filter_lookup_None. right. simpl. intros x _ X. now apply X.
  - rewrite lookup_delete_ne by exact N. destruct (db_objs D !! i) as [o|] eqn:E; symmetry; [now apply map_filter_lookup_Some|apply map_filter_lookup_None; now left].
Qed.
Lemma table_gone_ok n k D : db_ok D -> unreferred n D -> fst k = n -> (has_table D k \/ no_table D k) -> db_ok (without_table k D).
Proof.
  intros OK U Ek T. rewrite without_table_is. apply ok_without; auto.
  - intros (i & t & m & f & cs & rt & rc & _ & L & C & E). apply (U i t m f cs rt rc L C). now rewrite <- E.
  - intros (i & t & m & c & q & _ & L & C & I & E). destruct (OK i _ L) as [[O _] _]. destruct (O m c C q I) as (x & Lx & Tx). rewrite <- E in Lx.
    destruct T as [(y & T)|T]; [rewrite T in Lx; injection Lx as <-; discriminate|unfold no_table in T; congruence].
  - intros (i & ms & com & m & ty & q & _ & L & C & I & E). destruct (OK i _ L) as [O _]. destruct (O m ty C q I) as (x & Lx & Tx). rewrite <- E in Lx.
    destruct T as [(y & T)|T]; [rewrite T in Lx; injection Lx as <-; discriminate|unfold no_table in T; congruence].
  - intros i o L _. apply (OK i o L).
Qed.
Lemma drop_tables n ks : forall D, db_ok D -> unreferred n D -> (forall k, In k ks -> fst k = n /\ (has_table D k \/ no_table D k)) ->
  exists D1, drop_each ks D D1 /\ db_ok D1 /\ db_schemas D1 = db_schemas D /\ forall k, db_objs D1 !! k = if decide (k ∈ ks) then None else db_objs D !! k.
Proof.
  induction ks as [|k ks IH]; intros D OK U T.
  - exists D. cbn [drop_each]. split; [reflexivity|]. split; [exact OK|]. split; [reflexivity|]. intros k. destruct (decide _) as [I|]; [inversion I|reflexivity].
  - destruct (T k (or_introl eq_refl)) as [Ek Tk]. pose proof (table_gone_ok n k D OK U Ek Tk) as OK1. destruct (IH (without_table k D) OK1) as (D2 & X2 & OK2 & S2 & K2).
    + intros i t m f cs rt rc L C. unfold without_table in L. cbn [db_objs] in L. apply lookup_delete_Some in L as [_ L]. eapply U; eauto.
    + intros i Ii. destruct (T i (or_intror Ii)) as [Ei Ti]. split; [exact Ei|]. unfold has_table, no_table, without_table. cbn [db_objs].
      destruct (decide (k = i)) as [<-|N]; [right; apply lookup_delete|]. rewrite lookup_delete_ne by exact N. exact Ti.
    + exists D2. cbn [drop_each]. split; [exists (without_table k D); split; [split; [exact Tk|reflexivity]|split; [exact OK1|exact X2]]|]. split; [exact OK2|]. split; [exact S2|].
      intros i. rewrite K2. unfold without_table. cbn [db_objs]. destruct (decide (i ∈ ks)) as [I|NI], (decide (i ∈ k :: ks)) as [I'|NI']; rewrite ?elem_of_cons in *; auto; try tauto.
      * destruct I' as [->|]; [apply lookup_delete|contradiction].
      * apply lookup_delete_ne. intros ->. tauto.
Qed.
Lemma literal_std d s : (d = DMSSQL \/ d = DOracle) -> literal_value d (quote s) = Some s.
Proof.
  intros E. pose proof (quote_scan s "" (not_begins_nil QT)) as Q. rewrite append_nil_r in Q. unfold sql_literal, scan_token in Q. unfold literal_value.
  destruct (quote s) as [|c r]; [discriminate|]. destruct (Ascii.eqb c QT); [|discriminate]. destruct E as [-> | ->]; cbn [scan_lit]; now rewrite Q.
Qed.
Lemma mssql_drops n others D : db_ok D -> n <> "" -> ~ foreign_key_into (in_schema n) D ->
  (forall (k : okey) o, db_objs D !! k = Some o -> fst k = n -> has_table D k) -> leads_to DMSSQL others (conn_drop_schema DMSSQL n) D (without_schema n D).
Proof.
  intros OK N NF TB. cbn [conn_drop_schema]. unfold mssql_drop_schema. cbn [leads_to]. split.
  { destruct (keys_answer D n) as (out & L). exists out. cbn [pairs_answer]. exists n. split; [apply literal_std; auto|exact L]. }
  intros cs (n' & E & ND & IN). rewrite literal_std in E by auto. injection E as <-.
  destruct (drop_keys n cs D OK ND (fun p Ip => proj1 (IN p) Ip)) as (D1 & X1 & OK1 & S1 & K1 & T1 & F1).
  assert (R : leads_to DMSSQL others (AskNames (TablesOf (quote n)) (fun ts => let last := Execute [DropSchemaIfExists false n] Done in
                match ts with [] => last | _ => Execute [DropTables (map (fun t => Qualified (Some n) t) ts)] last end)) D1 (without_schema n D)).
  2:{ cbv zeta. destruct cs as [|p cs]; [|cbn [leads_to]; exists D1; split; [exact X1|exact R]]. cbn [map effects] in X1. subst D1. exact R. }
  assert (TB1 : forall k : okey, fst k = n -> has_table D1 k \/ no_table D1 k).
  { intros k Ek. destruct (T1 k) as [E|[_ E]]; [|auto]. destruct (db_objs D !! k) as [o|] eqn:L; [|right; exact E].
    destruct (TB k o L Ek) as (t & Lt). left. exists t. congruence. }
  assert (U1 : unreferred n D1).
  { intros k t m f fc rt rc L C E. destruct (decide (fst k = n)) as [Ek|Nk].
    - destruct k as [a b]. cbn [fst] in Ek. subst a. assert (Fk : has_foreign_key D1 (n, b) m) by (exists t; eauto 6). apply F1 in Fk as [Fk NI]. apply NI. now apply (IN (b, m)).
    - rewrite K1 in L by exact Nk. apply NF. do 7 eexists. split; [exact Nk|]. eauto. }
  cbn [leads_to]. split.
  { destruct (tables_answer D1 n) as (out & L). exists out. cbn [names_answer]. exists n. split; [apply literal_std; auto|exact L]. }
  intros ts (n' & E & ND' & IN'). rewrite literal_std in E by auto. injection E as <-. cbv zeta.
  destruct (drop_tables n (map key_of (map (fun t => Qualified (Some n) t) ts)) D1 OK1 U1) as (D2 & X2 & OK2 & S2 & K2).
  { intros k Ik. apply in_map_iff in Ik as (q & <- & Iq). apply in_map_iff in Iq as (t & <- & It). split; [reflexivity|]. now apply TB1. }
  assert (G2 : forall (k : okey) o, db_objs D2 !! k = Some o -> fst k <> n).
  { intros k o L Ek. rewrite K2 in L. destruct (decide _) as [|NI]; [discriminate|]. destruct (TB1 k Ek) as [T|T]; [|unfold no_table in T; congruence].
    apply NI. apply elem_of_list_In, in_map_iff. destruct k as [a b]. cbn [fst] in Ek. subst a. exists (Qualified (Some n) b). split; [reflexivity|]. apply in_map_iff. exists b. split; [reflexivity|]. now apply IN'. }
  assert (W2 : without_schema n D2 = without_schema n D).
  { apply db_eq; [unfold without_schema; cbn [db_schemas]; congruence|]. intros k. unfold without_schema. cbn [db_objs]. destruct (decide (fst k = n)) as [Ek|Nk].
    - rewrite (proj2 (map_filter_lookup_None _ _ k)), (proj2 (map_filter_lookup_None _ _ k)); [reflexivity| |]; right; simpl; auto.
    - assert (E : db_objs D2 !! k = db_objs D !! k).
      { rewrite K2. destruct (decide _) as [I|]; [|now apply K1]. exfalso. apply elem_of_list_In, in_map_iff in I as (q & <- & Iq). apply in_map_iff in Iq as (t & <- & _). now apply Nk. }
      destruct (db_objs D !! k) as [o|] eqn:L.
      + rewrite (proj2 (map_filter_lookup_Some _ _ k o)), (proj2 (map_filter_lookup_Some _ _ k o)); auto.
      + rewrite (proj2 (map_filter_lookup_None _ _ k)), (proj2 (map_filter_lookup_None _ _ k)); auto. }
  assert (OK3 : db_ok (without_schema n D2)).
  { assert (NN : forall k, in_schema n k -> db_objs D2 !! k = None) by (intros k Ek; destruct (db_objs D2 !! k) as [o|] eqn:L; [destruct (G2 k o L Ek)|reflexivity]).
    apply schema_gone_ok; auto.
    - intros (i & t & m & f & fc & rt & rc & _ & L & C & E). destruct (OK2 i _ L) as [[_ O] _]. destruct (O m _ C) as [[_ (x & Lx & _)] _]. rewrite (NN _ E) in Lx. discriminate.
    - intros (i & t & m & c & q & _ & L & C & I & E). destruct (OK2 i _ L) as [[O _] _]. destruct (O m c C q I) as (x & Lx & _). rewrite (NN _ E) in Lx. discriminate.
    - intros (i & ms & com & m & ty & q & _ & L & C & I & E). destruct (OK2 i _ L) as [O _]. destruct (O m ty C q I) as (x & Lx & _). rewrite (NN _ E) in Lx. discriminate. }
  assert (LAST : leads_to DMSSQL others (Execute [DropSchemaIfExists false n] Done) D2 (without_schema n D)).
  { cbn [leads_to effects effect]. exists (without_schema n D2). split; [|now rewrite W2]. exists (without_schema n D2). split; [|split; [exact OK3|reflexivity]].
    destruct (decide _) as [I|NI]; [split; [exact G2|reflexivity]|]. now apply without_missing. }
  destruct ts as [|t ts].
  - cbn [map drop_each] in X2. subst D2. exact LAST.
  - cbn [leads_to]. exists D2. split; [|exact LAST]. cbn [effects effect]. exists D2. split; [exact X2|]. split; [exact OK2|reflexivity].
Qed.
