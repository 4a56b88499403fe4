(** Proofs about the PostgreSQL explorer: the columns of a relation. *)
From Verif Require Import PyStr QuoteModel QuoteSpec ObjectDict ObjectDictProofs Types Objects SqlAst Ddl DbSpec CatSpec Factory Discover PgExplore PgCatSpec PgProofs1 PropsDiscover ExploreSpec.
From Verif Require DiscoverSpec.
From Coq Require Import List String Sorted Permutation Lia.
From stdpp Require Import gmap strings.

Lemma join_oid {A B} (key : A -> N) k (f : A -> list B) l x : List.NoDup (map key l) -> In x l -> key x = k -> flat_map (fun y => if N.eqb k (key y) then f y else []) l = f x.
Proof. intros N I <-. apply (join_one key); [exact N|exact I|apply N.eqb_refl|]. intros y _ E. now apply N.eqb_eq in E. Qed.
Lemma join_oid' {A B} (key : A -> N) k (f : A -> list B) l x : List.NoDup (map key l) -> In x l -> key x = k -> flat_map (fun y => if N.eqb (key y) k then f y else []) l = f x.
Proof. intros N I <-. apply (join_one key); [exact N|exact I|apply N.eqb_refl|]. intros y _ E. now apply N.eqb_eq in E. Qed.
Lemma left_oid {A} (key : A -> N) k l x : List.NoDup (map key l) -> In x l -> key x = k -> left_join (fun y => N.eqb k (key y)) l = [Some x].
Proof. intros N I <-. apply (left_one key); [exact N|exact I|apply N.eqb_refl|]. intros y _ E. now apply N.eqb_eq in E. Qed.
Ltac nil_join :=
  repeat first [ reflexivity
               | apply flat_map_nil; intros ? ?
               | match goal with |- (if ?c then _ else _) = [] => destruct c eqn:?; [|reflexivity] end ].

Section Rel.
  Context (show : option string -> string -> string) (deparse : sqltype -> string -> string) (P : pgcat) (order : forall A : Type, string -> list A -> list A).
  Hypothesis K : keys_ok P.
  Hypothesis OA : oids_apart P.
  Hypothesis AO : any_order order.
  Hypothesis KO : keys_in_order order.
  Hypothesis SH : DiscoverSpec.show_ok show.

  Lemma schema_name oid s s' : schema_of P oid s -> schema_of P oid s' -> s = s'.
  Proof. intros H1 H2. pose proof (keyed_eq nsp_oid _ _ _ (ko_nsp _ K) H1 H2 eq_refl) as E. now injection E. Qed.
  Lemma schema_oid oid oid' s : schema_of P oid s -> schema_of P oid' s -> oid = oid'.
  Proof. intros H1 H2. pose proof (keyed_eq nspname _ _ _ (ko_nspname _ K) H1 H2 eq_refl) as E. now injection E. Qed.

  Lemma where_is s n kinds cls nsp : where_relation (Qualified (Some s) n) kinds cls nsp = (String.eqb (relname cls) n && String.eqb (nspname nsp) s && existsb (String.eqb (relkind cls)) kinds)%bool.
  Proof.
    unfold where_relation. cbn [local_id scope_id]. rewrite !is_literal_quote. f_equal. induction kinds as [|k r IH]; [reflexivity|]. cbn [existsb]. now rewrite is_literal_quote, IH.
  Qed.
  Lemma where_only s n kinds kind c cls nsp : relation_at P (s, n) kind c -> In cls (pg_class P) -> In nsp (pg_namespace P) -> N.eqb (relnamespace cls) (nsp_oid nsp) = true ->
    where_relation (Qualified (Some s) n) kinds cls nsp = true -> cls = c.
  Proof.
    intros (Ic & En & Ek & Sc) Icl In_ E W. rewrite where_is in W. apply andb_true_iff in W as [W _]. apply andb_true_iff in W as [W1 W2]. apply String.eqb_eq in W1, W2. apply N.eqb_eq in E.
    apply (keyed_eq (fun c => (relname c, relnamespace c)) _ _ _ (ko_relname _ K) Icl Ic). cbn in En. rewrite W1, En. f_equal.
    apply (schema_oid _ _ s); [|exact Sc]. rewrite E. destruct nsp as [o m]. cbn in *. subst m. exact In_.
  Qed.
  Lemma where_true s n kinds kind c : relation_at P (s, n) kind c -> In kind kinds -> where_relation (Qualified (Some s) n) kinds c (Nsp (relnamespace c) s) = true.
  Proof.
    intros (Ic & En & Ek & Sc) I. rewrite where_is. cbn in *. rewrite En, !String.eqb_refl. cbn. apply existsb_exists. exists kind. split; [exact I|]. rewrite Ek. apply String.eqb_refl.
  Qed.

  (** the query for the type of an attribute *)
  Lemma type_found a ty :
    att_type show P a ty -> pg_faithful ty ->
    exists t ns el, In t (pg_type P) /\ In ns (pg_namespace P) /\
      typ_oid t = atttypid a /\ nsp_oid ns = typnamespace t /\
      left_join (fun e => N.eqb (typelem t) (typ_oid e)) (pg_type P) = [el] /\
      discover_type (TypeMeta (case_elem t el) (nspname ns) (att_format a)) (negb (Z.eqb (attndims a) 0)) = Ok ty.
  Proof.
    intros (s & r & t & S & R & (It & Sc & Sh) & E1 & E2 & E3) F.
    pose proof (C30_postgresql show ty SH F) as D. unfold found_pg in D. rewrite S, R in D. injection D as D.
    assert (AR : negb (Z.eqb (attndims a) 0) = DiscoverSpec.array r). { destruct (Z.eqb_spec (attndims a) 0) as [Z|Z]; destruct (DiscoverSpec.array r) eqn:Q; try reflexivity; exfalso; [apply (proj2 E3 eq_refl); exact Z|apply E3 in Z; discriminate]. }
    destruct (DiscoverSpec.array r) eqn:Q.
    - destruct Sh as (el & Iel & T1 & T2). exists t, (Nsp (typnamespace t) (DiscoverSpec.nspname r)), (Some el).
      repeat split; auto.
      + apply (left_oid typ_oid); auto. apply (ko_typ _ K).
      + unfold discover_type, case_elem. cbn [tm_name tm_schema tm_def]. rewrite T1. destruct (N.eqb_spec (typ_oid el) 0) as [Z|Z]; [exfalso; exact (ko_typ0 _ K el Iel Z)|].
        cbn [option_map nspname]. rewrite AR, E2, T2. rewrite <- D. reflexivity.
    - destruct Sh as (T1 & T2). exists t, (Nsp (typnamespace t) (DiscoverSpec.nspname r)), None.
      repeat split; auto.
      + apply left_none. intros y Iy. rewrite T1. apply N.eqb_neq. intros Z. symmetry in Z. exact (ko_typ0 _ K y Iy Z).
      + unfold discover_type, case_elem. cbn [tm_name tm_schema tm_def]. rewrite T1. cbn [N.eqb nspname]. rewrite AR, E2, T2. exact D.
  Qed.
  (** comments *)
  Lemma comment_found oid sub cm : comment_is P oid InClass sub cm -> In oid (map cls_oid (pg_class P)) ->
    exists d, left_join (fun d => N.eqb (objoid d) oid && Z.eqb (objsubid d) sub)%bool (pg_description P) = [d] /\ option_map dsc_text d = cm.
  Proof.
    intros C Io.
    assert (U : forall x, In x (pg_description P) -> (N.eqb (objoid x) oid && Z.eqb (objsubid x) sub)%bool = true -> objoid x = oid /\ objsubid x = sub /\ classoid x = InClass).
    { intros x Ix Ex. apply andb_true_iff in Ex as [E1 E2]. apply N.eqb_eq in E1. apply Z.eqb_eq in E2. split; [exact E1|]. split; [exact E2|].
      destruct (Z.eq_dec (objsubid x) 0%Z) as [Z|Z]; [|exact (ko_sub _ K x Ix Z)]. apply (OA x Ix Z). now rewrite E1. }
    destruct (left_split (fun d => (objoid d, classoid d, objsubid d)) (fun d => N.eqb (objoid d) oid && Z.eqb (objsubid d) sub)%bool (pg_description P) (ko_dsc _ K)) as [(x & Ix & Ex & ->)|[H ->]].
    - intros x y Ix Iy Ex Ey. destruct (U x Ix Ex) as (-> & -> & ->). destruct (U y Iy Ey) as (-> & -> & ->). reflexivity.
    - exists (Some x). split; [reflexivity|]. destruct (U x Ix Ex) as (E1 & E2 & E3). cbn. symmetry. apply C. destruct x as [o c s tx]. cbn in *. subst. exact Ix.
    - exists None. split; [reflexivity|]. cbn. destruct cm as [tx|]; [|reflexivity]. exfalso. specialize (H _ (proj2 (C tx) eq_refl)). cbn in H. rewrite N.eqb_refl, Z.eqb_refl in H. discriminate.
  Qed.
  Lemma type_comment_found oid cm : comment_is P oid InType 0 cm -> In oid (map typ_oid (pg_type P)) ->
    exists d, left_join (fun d => N.eqb (objoid d) oid && Z.eqb (objsubid d) 0)%bool (pg_description P) = [d] /\ option_map dsc_text d = cm.
  Proof.
    intros C Io.
    assert (U : forall x, In x (pg_description P) -> (N.eqb (objoid x) oid && Z.eqb (objsubid x) 0)%bool = true -> objoid x = oid /\ objsubid x = 0%Z /\ classoid x = InType).
    { intros x Ix Ex. apply andb_true_iff in Ex as [E1 E2]. apply N.eqb_eq in E1. apply Z.eqb_eq in E2. split; [exact E1|]. split; [exact E2|].
      apply (OA x Ix E2). now rewrite E1. }
    destruct (left_split (fun d => (objoid d, classoid d, objsubid d)) (fun d => N.eqb (objoid d) oid && Z.eqb (objsubid d) 0)%bool (pg_description P) (ko_dsc _ K)) as [(x & Ix & Ex & ->)|[H ->]].
    - intros x y Ix Iy Ex Ey. destruct (U x Ix Ex) as (-> & -> & ->). destruct (U y Iy Ey) as (-> & -> & ->). reflexivity.
    - exists (Some x). split; [reflexivity|]. destruct (U x Ix Ex) as (E1 & E2 & E3). cbn. symmetry. apply C. destruct x as [o c s tx]. cbn in *. subst. exact Ix.
    - exists None. split; [reflexivity|]. cbn. destruct cm as [tx|]; [|reflexivity]. exfalso. specialize (H _ (proj2 (C tx) eq_refl)). cbn in H. rewrite N.eqb_refl in H. discriminate.
  Qed.
  Lemma default_found rel num (x : option string) : (forall e, In (Def rel num e) (pg_attrdef P) <-> x = Some e) ->
    exists d, left_join (fun d => N.eqb (adrelid d) rel && Z.eqb (adnum d) num)%bool (pg_attrdef P) = [d] /\ option_map ad_expr d = x.
  Proof.
    intros C.
    destruct (left_split (fun d => (adrelid d, adnum d)) (fun d => N.eqb (adrelid d) rel && Z.eqb (adnum d) num)%bool (pg_attrdef P) (ko_def _ K)) as [(y & Iy & Ey & ->)|[H ->]].
    - intros y z Iy Iz Ey Ez. apply andb_true_iff in Ey as [E1 E2], Ez as [E3 E4]. apply N.eqb_eq in E1, E3. apply Z.eqb_eq in E2, E4. congruence.
    - exists (Some y). split; [reflexivity|]. apply andb_true_iff in Ey as [E1 E2]. apply N.eqb_eq in E1. apply Z.eqb_eq in E2. cbn. symmetry. apply C. destruct y as [o c s]. cbn in *. subst. exact Iy.
    - exists None. split; [reflexivity|]. cbn. destruct x as [e|]; [|reflexivity]. exfalso. specialize (H _ (proj2 (C e) eq_refl)). cbn in H. rewrite N.eqb_refl, Z.eqb_refl in H. discriminate.
  Qed.

  Definition liveb (rel : N) (a : att_row) : bool := (N.eqb (attrelid a) rel && Z.ltb 0 (attnum a) && negb (N.eqb (atttypid a) 0))%bool.
  Lemma liveb_live rel a : In a (pg_attribute P) -> liveb rel a = true <-> live P rel a.
  Proof.
    intros I. unfold liveb, live. rewrite !andb_true_iff, N.eqb_eq, Z.ltb_lt, negb_true_iff, N.eqb_neq. tauto.
  Qed.
  Definition lives (rel : N) : list att_row := List.filter (liveb rel) (pg_attribute P).
  Lemma lives_in rel a : In a (lives rel) <-> live P rel a.
  Proof. unfold lives. rewrite filter_In. split; [intros [I L]; now apply liveb_live|intros L; split; [apply L|apply liveb_live; [apply L|exact L]]]. Qed.
  Lemma live_eq rel a b : live P rel a -> live P rel b -> attnum a = attnum b -> a = b.
  Proof. intros (I & E & _) (I' & E' & _) N. apply (keyed_eq (fun a => (attrelid a, attnum a)) _ _ _ (ko_att _ K) I I'). congruence. Qed.
  Lemma lives_names rel : (forall a b, live P rel a -> live P rel b -> attname a = attname b -> attnum a = attnum b) -> List.NoDup (map attname (lives rel)).
  Proof.
    intros U. assert (N : List.NoDup (lives rel)) by (apply List.NoDup_filter, (keyed_nodup (fun a => (attrelid a, attnum a))), (ko_att _ K)).
    assert (Q : forall a, In a (lives rel) -> live P rel a) by (intros a; apply lives_in). revert N Q. generalize (lives rel). intros l. induction l as [|a l IH]; intros N Q; [constructor|].
    inversion N; subst. cbn. constructor; [|apply IH; auto; intros b I; apply Q; now right].
    intros I. apply in_map_iff in I as (b & E & I). assert (b = a); [|now subst]. apply (live_eq rel); [apply Q; now right|apply Q; now left|]. apply U; [apply Q; now right|apply Q; now left|exact E].
  Qed.

  Section Table.
    Context (s n : string) (c : cls_row).
    Hypothesis R : relation_at P (s, n) "r" c.
    Notation rel := (cls_oid c).
    Notation q := (Qualified (Some s) n).
    Lemma rel_in : In rel (map cls_oid (pg_class P)).
    Proof. apply in_map, R. Qed.

    (** a row of the query for columns shows the column [x] *)
    Definition shows_col (a : att_row) (x : dbcol) (m : Z * colmeta) : Prop :=
      cm_name (snd m) = attname a /\ discover_type (cm_type (snd m)) (cm_array (snd m)) = Ok (dc_type x) /\
      cm_nullable (snd m) = dc_null x /\ cm_identity (snd m) = dc_ident x /\ cm_desc (snd m) = dc_comment x /\
      cm_default (snd m) = option_map (fun e => deparse (dc_type x) (snd e)) (dc_default x).
    Lemma columns_found tb : table_rows show deparse P rel tb -> (forall k x, dt_cols tb !! k = Some x -> pg_faithful (dc_type x)) ->
      Forall2 (fun a m => exists x, dt_cols tb !! attname a = Some x /\ shows_col a x m) (lives rel) (q_columns P q).
    Proof.
      intros T F. unfold lives, q_columns. apply rows_forall2.
      - intros a Ia L. apply liveb_live in L; [|exact Ia]. destruct (tr_live _ _ _ _ _ T a L) as [x X].
        destruct (tr_cols _ _ _ _ _ T _ _ X) as (a' & L' & E & CR). assert (a' = a) as -> by (apply (live_eq rel); auto; exact (tr_names _ _ _ _ _ T _ _ L' L E)). clear E L'.
        destruct (type_found a (dc_type x) (cr_type _ _ _ _ _ _ CR) (F _ _ X)) as (t & ns & el & It & Ins & E1 & E2 & E3 & E4).
        destruct (comment_found rel (attnum a) (dc_comment x) (cr_comment _ _ _ _ _ _ CR) rel_in) as (d & D1 & D2).
        destruct (default_found rel (attnum a) (option_map (fun e => deparse (dc_type x) (snd e)) (dc_default x))) as (f & F1 & F2).
        { intros e. rewrite (cr_default _ _ _ _ _ _ CR e). destruct (dc_default x) as [[nm y]|]; cbn.
          - split; [intros (? & ? & [= <- <-] & ->); reflexivity|intros [= <-]; eauto].
          - split; [intros (? & ? & Z & _); discriminate Z|intros Z; discriminate Z]. }
        destruct L as (_ & L1 & L2 & L3). destruct R as (Ic & _ & _ & Sc).
        eexists. split; [|exists x; split; [exact X|]; unfold shows_col].
        + rewrite (join_oid typ_oid _ _ _ t (ko_typ _ K) It E1). rewrite (join_oid nsp_oid _ _ _ ns (ko_nsp _ K) Ins E2).
          rewrite (join_oid cls_oid _ _ _ c (ko_cls _ K) Ic (eq_sym L1)). rewrite (join_oid nsp_oid _ _ _ (Nsp (relnamespace c) s) (ko_nsp _ K) Sc eq_refl).
          rewrite E3. cbn [flat_map app]. rewrite F1. cbn [flat_map app]. rewrite D1. cbn [flat_map app]. unfold where_table. rewrite (where_true s n _ "r" c R) by (cbn; auto).
          rewrite (proj2 (Z.ltb_lt _ _) L2). cbn [andb app]. reflexivity.
        + cbn [snd cm_name cm_type cm_array cm_nullable cm_identity cm_desc cm_default]. repeat split; auto.
          * rewrite (cr_null _ _ _ _ _ _ CR). apply negb_involutive.
          * pose proof (cr_ident _ _ _ _ _ _ CR) as Id. unfold str_in. cbn [existsb]. destruct (dc_ident x) eqn:Q.
            -- destruct (proj2 Id eq_refl) as [-> | ->]; reflexivity.
            -- destruct (String.eqb_spec (attidentity a) "a") as [Z|Z]; [discriminate (proj1 Id (or_introl Z))|]. destruct (String.eqb_spec (attidentity a) "d") as [Y|Y]; [discriminate (proj1 Id (or_intror Y))|]. reflexivity.
      - intros a Ia L. nil_join. exfalso.
        assert (B : liveb rel a = true); [|congruence]. unfold liveb.
        repeat match goal with H : (_ && _)%bool = true |- _ => apply andb_true_iff in H as [? ?] end.
        match goal with Hc : In ?k (pg_class P), Hn : In ?m (pg_namespace P), E : N.eqb (relnamespace ?k) (nsp_oid ?m) = true, W : where_table _ ?k ?m = true |- _ => pose proof (where_only s n _ "r" c k m R Hc Hn E W) as -> end.
        match goal with H : N.eqb (attrelid a) _ = true |- _ => rewrite H end. match goal with H : Z.ltb 0 _ = true |- _ => rewrite H end. cbn.
        apply negb_true_iff, N.eqb_neq. match goal with It : In ?t (pg_type P), E : N.eqb (atttypid a) (typ_oid ?t) = true |- _ => apply N.eqb_eq in E; rewrite E; exact (ko_typ0 _ K t It) end.
    Qed.

    (** ** Constraints *)
    Definition con_rows (con : con_row) : list conmeta :=
      from tgt of unnest (conkey con) (confkey con);
      from cls of pg_class P; where_ N.eqb (conrelid con) (cls_oid cls);
      from nsp of pg_namespace P; where_ N.eqb (relnamespace cls) (nsp_oid nsp);
      where_ (where_table q cls nsp && str_in (contype con) ["p"; "u"; "f"]%string)%bool;
      from att of pg_attribute P; where_ (N.eqb (conrelid con) (attrelid att) && num_is (attnum att) (fst tgt))%bool;
      from cls_t of left_join (fun c => N.eqb (confrelid con) (cls_oid c)) (pg_class P);
      from nsp_t of left_join (fun n => match cls_t with Some c => N.eqb (relnamespace c) (nsp_oid n) | None => false end) (pg_namespace P);
      from att_t of left_join (fun a => N.eqb (confrelid con) (attrelid a) && num_is (attnum a) (snd tgt))%bool (pg_attribute P);
      [ConMeta (contype con) (conname con) (attname att) (option_map nspname nsp_t) (option_map relname cls_t) (option_map attname att_t)].
    Lemma constraints_are : q_constraints P q = flat_map con_rows (pg_constraint P).
    Proof. reflexivity. Qed.
    Lemma con_other con : conrelid con <> rel \/ str_in (contype con) ["p"; "u"; "f"]%string = false -> con_rows con = [].
    Proof.
      intros H. unfold con_rows. nil_join. exfalso.
      repeat match goal with H : (_ && _)%bool = true |- _ => apply andb_true_iff in H as [? ?] end.
      match goal with Hc : In ?k (pg_class P), Hn : In ?m (pg_namespace P), E : N.eqb (relnamespace ?k) (nsp_oid ?m) = true, W : where_table _ ?k ?m = true |- _ => pose proof (where_only s n _ "r" c k m R Hc Hn E W) as -> end.
      destruct H as [H|H]; [|congruence]. apply H. match goal with E : N.eqb (conrelid con) rel = true |- _ => now apply N.eqb_eq in E end.
    Qed.
    Lemma unnest_nil ks : unnest ks [] = map (fun k => (Some k, None)) ks.
    Proof. induction ks as [|k ks IH]; [reflexivity|]. cbn. now rewrite IH. Qed.
    Lemma con_names con m : In m (con_rows con) -> km_name m = conname con /\ km_type m = contype con.
    Proof.
      unfold con_rows. intros I.
      repeat match goal with
             | H : In _ (flat_map _ _) |- _ => apply in_flat_map in H as (? & ? & H)
             | H : In _ (if ?b then _ else _) |- _ => destruct b; [|destruct H]
             | H : In _ [_] |- _ => destruct H as [<-|[]]
             end. split; reflexivity.
    Qed.
    Lemma rel_step {B} con (g : list B) : conrelid con = rel -> str_in (contype con) ["p"; "u"; "f"]%string = true ->
      flat_map (fun cls => if N.eqb (conrelid con) (cls_oid cls) then flat_map (fun nsp => if N.eqb (relnamespace cls) (nsp_oid nsp)
        then if (where_table q cls nsp && str_in (contype con) ["p"; "u"; "f"]%string)%bool then g else [] else []) (pg_namespace P) else []) (pg_class P) = g.
    Proof.
      intros E T. destruct R as (Ic & _ & _ & Sc). rewrite (join_oid cls_oid _ _ _ c (ko_cls _ K) Ic (eq_sym E)).
      rewrite (join_oid nsp_oid _ _ _ (Nsp (relnamespace c) s) (ko_nsp _ K) Sc eq_refl). unfold where_table. rewrite (where_true s n _ "r" c R) by (cbn; auto). now rewrite T.
    Qed.
    Lemma att_step {B} (g : att_row -> list B) o k a : live P o a -> attnum a = k ->
      flat_map (fun att => if (N.eqb o (attrelid att) && num_is (attnum att) (Some k))%bool then g att else []) (pg_attribute P) = g a.
    Proof.
      intros (Ia & Er & _) En. apply (join_one (fun a => (attrelid a, attnum a))); [apply (ko_att _ K)|exact Ia| |].
      - cbn. now rewrite Er, En, N.eqb_refl, Z.eqb_refl.
      - intros y _ Hy. apply andb_true_iff in Hy as [H1 H2]. apply N.eqb_eq in H1. cbn in H2. apply Z.eqb_eq in H2. congruence.
    Qed.
    Lemma con_key con names : conrelid con = rel -> contype con = "p"%string \/ contype con = "u"%string -> numbered P rel (conkey con) names -> confkey con = [] -> confrelid con = 0%N ->
      con_rows con = map (fun x => ConMeta (contype con) (conname con) x None None None) names.
    Proof.
      intros E T N F Z. unfold con_rows. rewrite F, unnest_nil. assert (T' : str_in (contype con) ["p"; "u"; "f"]%string = true) by (destruct T as [-> | ->]; reflexivity).
      induction N as [|k x ks xs (a & L & Ek & Ex) N IH]; [reflexivity|]. cbn [map flat_map]. rewrite IH. clear IH.
      rewrite (rel_step con _ E T'). cbn [fst snd]. rewrite E, (att_step _ rel k a L Ek). rewrite Z.
      rewrite (left_none (fun c0 => N.eqb 0 (cls_oid c0))). 2:{ intros y Iy. apply N.eqb_neq. intros Q. exact (ko_cls0 _ K y Iy (eq_sym Q)). }
      cbn [flat_map app]. rewrite !left_none by (intros y Iy; cbn; first [reflexivity|apply andb_false_r]).
      cbn [flat_map app option_map]. now rewrite Ex.
    Qed.
    Lemma con_foreign con cs rc ref s' : conrelid con = rel -> contype con = "f"%string -> numbered P rel (conkey con) cs -> numbered P (confrelid con) (confkey con) rc -> length cs = length rc ->
      In ref (pg_class P) -> cls_oid ref = confrelid con -> schema_of P (relnamespace ref) s' ->
      con_rows con = map (fun x => ConMeta (contype con) (conname con) (fst x) (Some s') (Some (relname ref)) (Some (snd x))) (combine cs rc).
    Proof.
      intros E T N N' Ln I O Sc. unfold con_rows. assert (T' : str_in (contype con) ["p"; "u"; "f"]%string = true) by (rewrite T; reflexivity).
      revert rc N' Ln. generalize (confkey con) as fks. induction N as [|k x ks xs (a & L & Ek & Ex) N IH]; intros fks rc N' Ln.
      - destruct rc; [|discriminate]. inversion N'; subst. reflexivity.
      - destruct rc as [|y ys]; [discriminate|]. inversion N' as [|k' y' ks' ys' (b & Lb & Ekb & Exb) N1]; subst. cbn [combine map unnest flat_map]. rewrite (IH ks' ys N1) by (cbn in Ln; lia). clear IH.
        rewrite (rel_step con _ E T'). cbn [fst snd]. rewrite E, (att_step _ rel (attnum a) a L eq_refl).
        rewrite (left_oid cls_oid (confrelid con) _ ref (ko_cls _ K) I O). cbn [flat_map app]. rewrite (left_oid nsp_oid (relnamespace ref) _ (Nsp (relnamespace ref) s') (ko_nsp _ K) Sc eq_refl). cbn [flat_map app].
        rewrite (left_one (fun a => (attrelid a, attnum a)) _ _ b (ko_att _ K)).
        + reflexivity.
        + apply Lb.
        + destruct Lb as (_ & -> & _). cbn. now rewrite N.eqb_refl, Z.eqb_refl.
        + intros z _ Hz. apply andb_true_iff in Hz as [H1 H2]. apply N.eqb_eq in H1. cbn in H2. apply Z.eqb_eq in H2. destruct Lb as (_ & -> & _). congruence.
    Qed.

    (** the rows of one constraint, in the order in which the server delivers them *)
    Lemma named_rows con name : In con (pg_constraint P) -> conrelid con = rel -> conname con = name ->
      List.filter (fun r => String.eqb (km_name r) name) (q_constraints P q) = con_rows con.
    Proof.
      intros I E Nm. rewrite constraints_are, filter_flat_map. rewrite (flat_map_one _ _ con (keyed_nodup (fun k => (conrelid k, conname k)) _ (ko_con _ K)) I).
      - rewrite (ObjectDictProofs.filter_true (fun r => String.eqb (km_name r) name) (con_rows con)); [reflexivity|]. intros m Im. apply String.eqb_eq. rewrite <- Nm. apply (con_names con m Im).
      - intros k Ik D. destruct (N.eq_dec (conrelid k) rel) as [Er|Er]; [|rewrite con_other by auto; reflexivity].
        apply filter_none. intros m Im. apply String.eqb_neq. rewrite (proj1 (con_names k m Im)). intros Z. apply D. apply (keyed_eq (fun k => (conrelid k, conname k)) _ _ _ (ko_con _ K) Ik I). congruence.
    Qed.
  End Table.
End Rel.
