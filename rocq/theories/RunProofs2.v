(** CREATE scripts. *)
From Verif Require Import PyStr QuoteModel ObjectDict ObjectDictSpec ObjectDictProofs Types Objects SqlAst Ddl Mutate TopoSpec SortSpec DbSpec CatSpec MutSpec RefSpec DbLemmas EqProofs TabProofs1 TabProofs2 NsProofs1 NsProofs2 NsProofs3 NsProofs4 NsProofs5 CatProofs1 CatProofs2 CatProofs3 CatProofs4 CatProofs5 SortProofs RunProofs1.
From stdpp Require Import gmap strings.
Open Scope list_scope.

Section Okl.
  Variable D : db.
  Definition okl (pre l : list stmt) : Prop := forall l1 s l2, l = l1 ++ s :: l2 -> provided D (pre ++ l1) s.
  Lemma provided_incl l l' s : incl l l' -> provided D l s -> provided D l' s.
  Proof. intros I H D1 G H1 H2 H3. apply H; [exact G| | |]; eauto. Qed.
  Lemma okl_all pre l : (forall s, In s l -> provided D pre s) -> okl pre l.
  Proof. intros H l1 s l2 E. eapply provided_incl; [|apply H]; [apply incl_appl, incl_refl|]. rewrite E. apply in_or_app. right. now left. Qed.
  Lemma okl_nil pre : okl pre [].
  Proof. intros l1 s l2 E. destruct l1; discriminate. Qed.
  Lemma app_split {A} (a b l1 l2 : list A) s : a ++ b = l1 ++ s :: l2 ->
    (exists r, a = l1 ++ s :: r /\ l2 = r ++ b) \/ (exists r, l1 = a ++ r /\ b = r ++ s :: l2).
  Proof.
    revert l1. induction a as [|x a IH]; intros l1 E; simpl in E; [right; exists l1; auto|].
    destruct l1 as [|y l1]; simpl in E; injection E as -> E.
    - left. exists a. auto.
    - destruct (IH l1 E) as [(r & -> & ->)|(r & -> & ->)]; [left|right]; exists r; auto.
  Qed.
  Lemma okl_app pre a b : okl pre a -> okl (pre ++ a) b -> okl pre (a ++ b).
  Proof.
    intros Ha Hb l1 s l2 E. apply app_split in E as [(r & -> & ->)|(r & -> & ->)].
    - now apply (Ha l1 s r).
    - rewrite app_assoc. now apply (Hb r s l2).
  Qed.
  Lemma okl_concat {A} pre (f : A -> list stmt) xs :
    (forall x1 x x2, xs = x1 ++ x :: x2 -> okl (pre ++ concat (map f x1)) (f x)) -> okl pre (concat (map f xs)).
  Proof.
    revert pre. induction xs as [|x xs IH]; intros pre H; [apply okl_nil|]. cbn [map concat]. apply okl_app.
    - assert (Z := H [] x xs eq_refl). simpl in Z. now rewrite app_nil_r in Z.
    - apply IH. intros x1 y x2 ->. rewrite <- app_assoc. exact (H (x :: x1) y x2 eq_refl).
  Qed.
End Okl.

(** *** statements of each script are creations *)
Lemma create_struct_stmts d x l : create_struct d x = Ok l ->
  exists r, l = SCreateStruct (s_name x) (map (fun m => (m_name m, m_type m)) (s_members x)) :: r /\ forall s, In s r -> exists q c, s = SCommentType q c.
Proof.
  unfold create_struct. destruct (map_res _ (s_members x)) as [ms|] eqn:E; [|discriminate]. simpl. intros [= <-].
  apply map_res_map with (g := fun m => (m_name m, m_type m)) in E.
  - rewrite E. eexists. split; [reflexivity|]. intros s. destruct d, (s_desc x); simpl; try tauto. intros [<-|[]]. eauto.
  - intros m y. destruct (type_str (m_type m)); simpl; [|discriminate]. now intros [= <-].
Qed.
Lemma column_def_same d c cd : column_def d c = Ok cd -> cd_name cd = c_name c /\ cd_type cd = c_type c.
Proof.
  unfold column_def. intros H.
  repeat match type of H with
  | bind ?z _ = _ => destruct z; simpl in H; [|discriminate]
  | match ?z with _ => _ end = _ => destruct z; simpl in H; try discriminate
  end; injection H as <-; auto.
Qed.
Lemma map_res_in {A B} (f : A -> res B) l r : map_res f l = Ok r -> forall y, In y r -> exists x, In x l /\ f x = Ok y.
Proof.
  revert r. induction l as [|x l IH]; intros r H y Iy; simpl in H; [injection H as <-; destruct Iy|].
  destruct (f x) as [b|] eqn:E; simpl in H; [|discriminate]. destruct (map_res f l) as [bs|]; simpl in H; [|discriminate]. injection H as <-.
  destruct Iy as [<-|Iy]; [exists x; auto with datatypes|]. destruct (IH bs eq_refl y Iy) as (z & Iz & Ez). exists z. split; [now right|exact Ez].
Qed.
Lemma value_columns_in t cs : get_value_columns t None = Ok cs -> forall c, In c cs -> In c (t_columns t).
Proof.
  unfold get_value_columns, get_columns. simpl. intros [= <-] c Ic. now apply filter_In in Ic as [Ic _].
Qed.
Lemma create_table_stmts d x l : create_table d x = Ok l ->
  exists cols r1 r2, l = SCreateTable (t_name x) cols (pk_name d (t_name x)) (t_pk x) (inline_table_comment d x) :: r1 ++ r2
    /\ (forall cd, In cd cols -> exists c, In c (t_columns x) /\ cd_name cd = c_name c /\ cd_type cd = c_type c)
    /\ map cd_name cols = map c_name (t_columns x)
    /\ (forall s, In s r1 -> creation s /\ forall D, needs s D)
    /\ (forall s, In s r2 -> exists cs rows oc, s = SInsert (t_name x) cs rows oc /\ forall c, In c cs -> In c (map c_name (t_columns x)))
    /\ (forall s, In s r1 -> match s with SCommentTable _ _ | SCommentColumn _ _ _ => True | _ => False end).
Proof.
  unfold create_table. destruct (map_res (column_def d) (t_columns x)) as [cols|] eqn:E; [|discriminate]. simpl.
  destruct (enum_insert x) as [ins|] eqn:E2; [|discriminate]. simpl. intros [= <-].
  exists cols, (create_comments d x), ins. split; [reflexivity|]. split; [|split; [|split; [|split]]].
  - intros cd I. destruct (map_res_in _ _ _ E cd I) as (c & Ic & Hc). exists c. split; [exact Ic|]. now apply column_def_same in Hc.
  - now apply column_defs_names in E.
  - intros s Hs. unfold create_comments in Hs. destruct d; try (destruct Hs; fail). apply in_app_or in Hs as [Hs|Hs].
    + destruct (t_desc x); [destruct Hs as [<-|[]]; simpl; auto|destruct Hs].
    + apply in_flat_map in Hs as (c & _ & Hs). destruct (c_desc c); [destruct Hs as [<-|[]]; simpl; auto|destruct Hs].
  - unfold enum_insert in E2. destruct (t_enum x) as [vs|]; [|injection E2 as <-; intros s []].
    destruct (get_value_columns x None) as [cs|] eqn:E3; [|discriminate]. simpl in E2. destruct (map_res constant vs); [|discriminate]. simpl in E2. injection E2 as <-.
    intros s [<-|[]]. do 3 eexists. split; [reflexivity|]. intros c Ic. apply in_map_iff in Ic as (y & <- & Iy). apply in_map. eapply value_columns_in; eauto.
  - intros s Hs. unfold create_comments in Hs. destruct d; try (destruct Hs; fail). apply in_app_or in Hs as [Hs|Hs].
    + destruct (t_desc x); [destruct Hs as [<-|[]]; simpl; auto|destruct Hs].
    + apply in_flat_map in Hs as (c & _ & Hs). destruct (c_desc c); [destruct Hs as [<-|[]]; simpl; auto|destruct Hs].
Qed.
Lemma add_constraints_stmts d x s : In s (add_constraints d x) ->
  exists acts, s = SAlterTable (t_name x) acts /\ (forall a, In a acts -> adds a) /\ forall k, In (AAddConstraint k) acts -> In k (t_constraints x).
Proof.
  unfold add_constraints. destruct (table_constraints x) as [|k0 ks] eqn:E; [intros []|]. rewrite <- E. clear E. intros H.
  assert (G : forall acts, incl acts (map AAddConstraint (table_constraints x)) -> s = SAlterTable (t_name x) acts ->
     exists acts, s = SAlterTable (t_name x) acts /\ (forall a, In a acts -> adds a) /\ forall k, In (AAddConstraint k) acts -> In k (t_constraints x)).
  { intros acts I ->. exists acts. split; [reflexivity|]. split.
    - intros a Ia. apply I in Ia. apply in_map_iff in Ia as (k & <- & _). exact Logic.I.
    - intros k Ik. apply I in Ik. apply in_map_iff in Ik as (k' & [= ->] & Ik). unfold table_constraints in Ik. now apply filter_In in Ik as [Ik _]. }
  unfold alter_table in H. destruct d; cbn [In] in H;
    try (destruct H as [<-|[]]; eapply G; [apply incl_refl|reflexivity]);
    apply in_map_iff in H as (a & <- & Ia); (eapply G; [|reflexivity]); intros b [<-|[]]; exact Ia.
Qed.

(** *** effect *)
Section Create.
  Variables (d : dialect) (c : catalog) (D : db).
  Hypothesis W : cat_wf d c.
  Hypothesis U : unused c D.
  Lemma no_replaced e : ~ replaced [] c e.
  Proof. intros (a & b & x & [] & _). Qed.
  Lemma nf_nil : names_free [] c D.
  Proof.
    constructor.
    - intros k Hk _. now apply (proj1 U).
    - intros n I _. now apply (proj2 U).
    - intros e He. destruct (no_replaced e He).
  Qed.
  Lemma diff_nil : od_difference n_name c [] = c.
  Proof. clear. unfold od_difference. induction c as [|n r IH]; [reflexivity|]. cbn [List.filter od_mem existsb negb]. f_equal. exact IH. Qed.
  Lemma wf_nil : cat_wf d [].
  Proof. constructor; [constructor|intros n []]. Qed.
  Lemma compat_nil : cat_compat d [] c.
  Proof. constructor; [intros a b []|intros e n ty q He; destruct (no_replaced e He)|intros e He; destruct (no_replaced e He)]. Qed.
  Lemma has_nil : has_cat d [] D.
  Proof. split; intros n; intros; contradiction. Qed.
  Lemma P0_eq k v : P0 [] c D k v -> v = db_objs D !! k.
  Proof.
    unfold P0, gobj. intros H. induction H as [|a b e (k' & n & (x & Hx & _) & _) _ IH]; [reflexivity|]. destruct (no_replaced x Hx).
  Qed.
  Lemma create_exec os : concat_res (create_objects d) c = Ok os ->
    exec_all (engine_of d) ((flat_map (create_schema d) c ++ os) ++ cat_add_constraints d c) D = Some (plus_cat d c D).
  Proof.
    intros H. rewrite <- app_assoc, exec_all_app, create_schemas_exec; [|exact (cw_names _ _ W)|exact (proj2 U)]. cbn [mbind option_bind].
    assert (T1 := ph1 d [] c D wf_nil W compat_nil nf_nil os). rewrite diff_nil in T1. specialize (T1 H).
    assert (T2 := ph2 d [] c D W). rewrite diff_nil in T2.
    destruct (tri_app _ _ _ _ _ _ _ T1 T2 (Db (db_schemas D ∪ cat_schemas c) (db_objs D))) as (D' & X & S & Q).
    - reflexivity.
    - intros k. unfold P0. reflexivity.
    - unfold cat_add_constraints. rewrite X. f_equal. destruct D' as [S' O']. unfold plus_cat. simpl in S. rewrite S. f_equal. apply map_eq. intros k. specialize (Q k). simpl in Q.
      change (gobj (Db S' O') k) with (O' !! k) in Q.
      destruct (in_dec (fun a b => decide (a = b)) k (cat_keys c)) as [Hk|Hk].
      + apply in_cat_keys in Hk as (n & I & Hk). assert (Ek := key_scope d c n k W I Hk).
        rewrite <- (ns_objs_keys d) in Hk. apply in_map_iff in Hk as ([k' x] & E & Hx). cbn [fst] in E. subst k'.
        rewrite (lookup_union_Some_l _ _ k x); [|apply cat_objs_lookup; eauto].
        assert (Wn := cw_ns _ _ W n I). destruct Q as [Q1 Q2].
        apply in_ns_objs in Hx as [(e & Ie & -> & ->)|[(e & Ie & -> & ->)|(e & Ie & -> & ->)]].
        * destruct Q2 as [Q2 _]; [|apply (Q2 n I Ek); auto]. intros Hk. apply in_map_iff in Hk as (y & Ey & Iy). apply in_flat_map in Iy as (m & Im & Iy).
          assert (m = n) by (apply (ns_unique d c); auto; rewrite <- Ey, (kn_t d m (cw_ns _ _ W m Im) y Iy) in Ek; exact Ek). subst m.
          assert (X' := excl_n d n Wn (e_key e)). rewrite (kn_t d n Wn y Iy), (kn_e d n Wn e Ie) in Ey. injection Ey as Ey.
          apply (proj1 (proj2 X')); [now apply in_map|]. unfold Ts. rewrite <- Ey. now apply in_map.
        * destruct Q2 as [Q2 _]; [|apply (Q2 n I Ek); auto]. intros Hk. apply in_map_iff in Hk as (y & Ey & Iy). apply in_flat_map in Iy as (m & Im & Iy).
          assert (m = n) by (apply (ns_unique d c); auto; rewrite <- Ey, (kn_t d m (cw_ns _ _ W m Im) y Iy) in Ek; exact Ek). subst m.
          assert (X' := excl_n d n Wn (s_key e)). rewrite (kn_t d n Wn y Iy), (kn_s d n Wn e Ie) in Ey. injection Ey as Ey.
          apply (proj2 (proj2 X')); [now apply in_map|]. unfold Ts. rewrite <- Ey. now apply in_map.
        * apply (Q1 e); [|reflexivity]. apply in_flat_map. eauto.
      + rewrite lookup_union_r by now apply (cat_objs_none d). apply P0_eq.
        assert (Nt : ~ In k (map tk (flat_map n_tables c))).
        { intros Z. apply Hk. apply in_map_iff in Z as (y & <- & Iy). apply in_flat_map in Iy as (m & Im & Iy). apply in_cat_keys. exists m. split; [exact Im|].
          apply in_keys. right. right. now apply in_map. }
        destruct Q as [_ Q]. specialize (Q Nt). destruct (in_dec string_dec (fst k) (map n_name c)) as [In_|In_].
        * apply in_map_iff in In_ as (n & En & I). destruct Q as [Q _]. apply (Q n I (eq_sym En)). intros Z. apply Hk. apply in_cat_keys. eauto.
        * destruct Q as [_ Q]. auto.
  Qed.
End Create.

(** *** order *)
Section Order.
  Variables (d : dialect) (c0 c : catalog) (D : db).
  Hypothesis Sort : sorted_catalog c0 c.
  Hypothesis W : cat_wf d c0.
  Hypothesis RC : refs_closed c0.
  Let perm := proj1 Sort.
  Let obj (n : namespace) := ok_or [] (create_objects d n).

  Lemma in_c n : In n c -> In n c0.
  Proof. apply Permutation_in. now symmetry. Qed.
  Lemma exists_key q q' D1 : key_of q = key_of q' -> type_exists D1 q -> type_exists D1 q'.
  Proof. unfold type_exists. now intros ->. Qed.

  Definition tstmts (l : list stmt) (q : qid) : Prop := exists q', key_of q' = key_of q /\ ((exists vs, In (SCreateEnum q' vs) l) \/ exists ms, In (SCreateStruct q' ms) l).
  Lemma tstmts_provided l s : (forall D1, (forall q, tstmts l q -> type_exists D1 q) ->
      (forall q cols pkn pk cm, In (SCreateTable q cols pkn pk cm) l -> table_with D1 q pk (map cd_name cols)) -> needs s D1) -> provided D l s.
  Proof.
    intros H D1 G H1 H2 H3. apply H; [|exact H3]. intros q (q' & E & [(vs & I)|(ms & I)]); eapply exists_key; eauto.
  Qed.
  Lemma tstmts_incl l l' q : incl l l' -> tstmts l q -> tstmts l' q.
  Proof. intros I (q' & E & [(vs & H)|(ms & H)]); exists q'; (split; [exact E|]); [left|right]; eauto. Qed.

  Section Objs.
    Hypothesis HO : forall n, In n c -> exists os, create_objects d n = Ok os.
    Lemma obj_parts n : In n c -> obj n = map create_enum (n_enums n) ++ concat (map (fun x => ok_or [] (create_struct d x)) (n_structs n)) ++ concat (map (fun x => ok_or [] (create_table d x)) (n_tables n))
      /\ (forall x, In x (n_structs n) -> exists l, create_struct d x = Ok l) /\ (forall x, In x (n_tables n) -> exists l, create_table d x = Ok l).
    Proof.
      intros I. destruct (HO n I) as [os H]. unfold obj. rewrite H. cbn [ok_or]. unfold create_objects in H.
      match type of H with bind ?z _ = _ => destruct z as [l2|] eqn:H2; simpl in H; [|discriminate] end.
      match type of H with bind ?z _ = _ => destruct z as [l4|] eqn:H4; simpl in H; [|discriminate] end.
      injection H as <-. apply concat_res_ok in H2 as [H2 ->]. apply concat_res_ok in H4 as [H4 ->]. auto.
    Qed.
    Lemma obj_types n q : In n c -> type_of n q -> tstmts (obj n) q.
    Proof.
      intros I [(e & Ie & E)|(x & Ix & E)]; destruct (obj_parts n I) as (P & HS & _); rewrite P.
      - exists (e_name e). split; [exact E|]. left. exists (e_values e). apply in_or_app. left. exact (in_map create_enum _ _ Ie).
      - destruct (HS x Ix) as [l Hl]. exists (s_name x). split; [exact E|]. right. destruct (create_struct_stmts d x l Hl) as (r & El & _).
        exists (map (fun m => (m_name m, m_type m)) (s_members x)). apply in_or_app. right. apply in_or_app. left. apply in_concat. exists l. split; [|rewrite El; now left].
        apply in_map_iff. exists x. rewrite Hl. auto.
    Qed.
    Lemma obj_tables n x : In n c -> In x (n_tables n) -> exists cols, In (SCreateTable (t_name x) cols (pk_name d (t_name x)) (t_pk x) (inline_table_comment d x)) (obj n) /\ map cd_name cols = map c_name (t_columns x).
    Proof.
      intros I Ix. destruct (obj_parts n I) as (P & _ & HT). rewrite P. destruct (HT x Ix) as [l Hl]. destruct (create_table_stmts d x l Hl) as (cols & r1 & r2 & El & _ & En & _).
      exists cols. split; [|exact En]. apply in_or_app. right. apply in_or_app. right. apply in_concat. exists l. split; [|rewrite El; now left].
      apply in_map_iff. exists x. rewrite Hl. auto.
    Qed.
    Lemma obj_creation n s : In n c -> In s (obj n) -> creation s.
    Proof.
      intros I Hs. destruct (obj_parts n I) as (P & HS & HT). rewrite P in Hs. apply in_app_or in Hs as [Hs|Hs]; [apply in_map_iff in Hs as (e & <- & _); exact Logic.I|].
      apply in_app_or in Hs as [Hs|Hs]; apply in_concat in Hs as (l & Hl & Hs); apply in_map_iff in Hl as (x & <- & Ix).
      - destruct (HS x Ix) as [l Hl]. rewrite Hl in Hs. cbn [ok_or] in Hs. destruct (create_struct_stmts d x l Hl) as (r & -> & Hr). destruct Hs as [<-|Hs]; [exact Logic.I|].
        destruct (Hr s Hs) as (q & cm & ->). exact Logic.I.
      - destruct (HT x Ix) as [l Hl]. rewrite Hl in Hs. cbn [ok_or] in Hs. destruct (create_table_stmts d x l Hl) as (cols & r1 & r2 & -> & _ & _ & H1 & H2 & _).
        destruct Hs as [<-|Hs]; [exact Logic.I|]. apply in_app_or in Hs as [Hs|Hs]; [now apply H1|]. destruct (H2 s Hs) as (cs & rows & oc & -> & _). exact Logic.I.
    Qed.

    Lemma earlier l1 n l2 m : c = l1 ++ n :: l2 -> In m c0 -> depends c0 (n_name n) (n_name m) -> In m l1.
    Proof.
      intros E Im Hd. destruct (proj2 Sort l1 n l2 E (n_name m) Hd) as (m' & I' & Em). assert (m' = m); [|now subst].
      apply (ns_unique d c0); auto. apply in_c. rewrite E. apply in_or_app. now left.
    Qed.
    Lemma other_earlier l1 n l2 ty q : c = l1 ++ n :: l2 -> In ty (types_of n) -> other_type c0 n ty q -> tstmts (concat (map obj l1)) q.
    Proof.
      intros E It (Hu & m & Im & Nm & Hs & Ht). assert (In_ : In n c) by (rewrite E; apply in_or_app; right; now left).
      assert (I1 : In m l1).
      { apply (earlier l1 n l2 m E Im). split; [congruence|]. exists n, m, q. split; [now apply in_c|]. split; [exact Im|]. split; [reflexivity|]. split; [reflexivity|]. split; [|exact Hs].
        unfold types_of in It. apply in_app_or in It as [It|It]; apply in_flat_map in It as (x & Ix & It); apply in_map_iff in It as (y & <- & Iy).
        - eapply uses_member; eauto.
        - eapply uses_column; eauto. }
      eapply tstmts_incl; [|apply (obj_types m q)]; [|rewrite E; apply in_or_app; now left|exact Ht].
      intros s Hs'. apply in_concat. exists (obj m). split; [now apply in_map|exact Hs'].
    Qed.

    Lemma okl_ns l1 n l2 pre : c = l1 ++ n :: l2 -> incl (concat (map obj l1)) pre -> okl D pre (obj n).
    Proof.
      intros E Ip. assert (In_ : In n c) by (rewrite E; apply in_or_app; right; now left). assert (In0 := in_c n In_).
      destruct (obj_parts n In_) as (P & HS & HT). rewrite P. apply okl_app; [|apply okl_app].
      - apply okl_all. intros s Hs. apply in_map_iff in Hs as (e & <- & _). intros D1 _ _ _ _. exact Logic.I.
      - apply okl_concat. intros x1 x x2 Ex. assert (Ix : In x (n_structs n)) by (rewrite Ex; apply in_or_app; right; now left). destruct (HS x Ix) as [l Hl]. rewrite Hl. cbn [ok_or].
        destruct (create_struct_stmts d x l Hl) as (r & -> & Hr). apply okl_all. intros s [<-|Hs]; [|destruct (Hr s Hs) as (q & cm & ->); intros D1 _ _ _ _; exact Logic.I].
        apply tstmts_provided. intros D1 HQ _ p Hp q Hq. apply in_map_iff in Hp as (m & <- & Im). cbn [snd] in Hq. apply HQ.
        destruct (rc_member _ RC n x1 x x2 m q In0 Ex Im Hq) as [(e & Ie & Ee)|[(y & Iy & Ey)|Ho]].
        + exists (e_name e). split; [exact Ee|]. left. exists (e_values e). apply in_or_app. left. apply in_or_app. right. exact (in_map create_enum _ _ Ie).
        + assert (Iy' : In y (n_structs n)) by (rewrite Ex; apply in_or_app; now left). destruct (HS y Iy') as [ly Hly]. destruct (create_struct_stmts d y ly Hly) as (ry & Ely & _).
          exists (s_name y). split; [exact Ey|]. right. exists (map (fun m => (m_name m, m_type m)) (s_members y)). apply in_or_app. right. apply in_concat. exists ly.
          split; [|rewrite Ely; now left]. apply in_map_iff. exists y. rewrite Hly. auto.
        + eapply tstmts_incl; [|eapply other_earlier; [exact E| |exact Ho]].
          * apply incl_appl, incl_appl. exact Ip.
          * unfold types_of. apply in_or_app. left. apply in_flat_map. exists x. split; [exact Ix|now apply in_map].
      - apply okl_concat. intros x1 x x2 Ex. assert (Ix : In x (n_tables n)) by (rewrite Ex; apply in_or_app; right; now left). destruct (HT x Ix) as [l Hl]. rewrite Hl. cbn [ok_or].
        destruct (create_table_stmts d x l Hl) as (cols & r1 & r2 & -> & Hc & En & H1 & H2 & _).
        apply (okl_app D _ [_]); [|apply okl_app].
        + apply okl_all. intros s [<-|[]]. apply tstmts_provided. intros D1 HQ _ cd Icd q Hq. destruct (Hc cd Icd) as (k & Ik & _ & Ty). rewrite Ty in Hq. apply HQ.
          destruct (rc_column _ RC n x k q In0 Ix Ik Hq) as [Ht|Ho].
          * assert (Ht' := obj_types n q In_ Ht). rewrite P in Ht'. clear - Ht' HT. destruct Ht' as (q' & Eq & Hin). exists q'. split; [exact Eq|].
            assert (Nt : forall s, In s (concat (map (fun x => ok_or [] (create_table d x)) (n_tables n))) -> match s with SCreateEnum _ _ | SCreateStruct _ _ => False | _ => True end).
            { intros s Hs. apply in_concat in Hs as (l & Hl & Hs). apply in_map_iff in Hl as (x & <- & Ix). destruct (HT x Ix) as [l Hl]. rewrite Hl in Hs. cbn [ok_or] in Hs.
              destruct (create_table_stmts d x l Hl) as (cols & r1 & r2 & -> & _ & _ & _ & H2 & H3). destruct Hs as [<-|Hs]; [exact Logic.I|]. apply in_app_or in Hs as [Hs|Hs].
              - specialize (H3 s Hs). now destruct s.
              - destruct (H2 s Hs) as (cs & rows & oc & -> & _). exact Logic.I. }
            assert (Inc : forall s, In s (map create_enum (n_enums n) ++ concat (map (fun x => ok_or [] (create_struct d x)) (n_structs n)) ++ concat (map (fun x => ok_or [] (create_table d x)) (n_tables n))) ->
               match s with SCreateEnum _ _ | SCreateStruct _ _ => True | _ => False end -> In s (((pre ++ map create_enum (n_enums n)) ++ concat (map (fun x => ok_or [] (create_struct d x)) (n_structs n))) ++ concat (map (fun x => ok_or [] (create_table d x)) x1))).
            { intros s Hs Hm. apply in_or_app. left. apply in_app_or in Hs as [Hs|Hs]; [apply in_or_app; left; apply in_or_app; now right|].
              apply in_app_or in Hs as [Hs|Hs]; [apply in_or_app; now right|]. apply Nt in Hs. destruct s; contradiction. }
            destruct Hin as [(vs & Hin)|(ms & Hin)]; [left; exists vs|right; exists ms]; (apply Inc; [exact Hin|exact Logic.I]).
          * eapply tstmts_incl; [|eapply other_earlier; [exact E| |exact Ho]].
            { apply incl_appl, incl_appl, incl_appl. exact Ip. }
            { unfold types_of. apply in_or_app. right. apply in_flat_map. exists x. split; [exact Ix|now apply in_map]. }
        + apply okl_all. intros s Hs D1 _ _ _ _. now apply H1.
        + apply okl_all. intros s Hs. destruct (H2 s Hs) as (cs & rows & oc & -> & Hin). apply tstmts_provided. intros D1 _ HT1. cbn [needs].
          destruct (HT1 (t_name x) cols (pk_name d (t_name x)) (t_pk x) (inline_table_comment d x)) as (tb & Hb & _ & Hcols).
          { apply in_or_app. left. apply in_or_app. right. now left. }
          exists tb. split; [exact Hb|]. intros k Ik. apply Hcols. rewrite En. auto.
    Qed.
    Lemma okl_script : okl D [] ((flat_map (create_schema d) c ++ concat (map obj c)) ++ cat_add_constraints d c).
    Proof.
      apply okl_app; [apply okl_app|].
      - apply okl_all. intros s Hs. apply in_flat_map in Hs as (n & _ & Hs). unfold create_schema in Hs. destruct (n_name n); [destruct Hs|]. 
        intros D1 _ _ _ _. cbn [In] in Hs. destruct Hs as [<-|[]]. exact Logic.I.
      - apply okl_concat. intros l1 n l2 E. eapply okl_ns; [exact E|]. apply incl_appr, incl_refl.
      - unfold cat_add_constraints, ns_add_constraints. apply okl_all. intros s Hs. apply in_flat_map in Hs as (n & In_ & Hs). apply in_flat_map in Hs as (x & Ix & Hs).
        destruct (add_constraints_stmts d x s Hs) as (acts & -> & _ & Hk). apply tstmts_provided. intros D1 _ HT k Ik. apply Hk in Ik.
        destruct k as [|a cs rt rc| |]; try exact Logic.I. destruct (rc_foreign _ RC n x a cs rt rc (in_c n In_) Ix Ik) as (L & m & y & Im & Iy & Ek & Ep).
        split; [exact L|]. assert (Imc : In m c) by (eapply Permutation_in; [exact perm|exact Im]).
        destruct (obj_tables m y Imc Iy) as (cols & Hc & _). destruct (HT _ _ _ _ _ (in_or_app _ _ _ (or_intror (in_or_app _ _ _ (or_intror (proj2 (in_concat _ _) (ex_intro _ (obj m) (conj (in_map obj c m Imc) Hc)))))))) as (tb & Hb & Hp & _).
        exists tb. split; [rewrite <- Ek; exact Hb|]. left. congruence.
    Qed.
  End Objs.
End Order.

Theorem create_runs d c c' l D :
  cat_create d c = Ok (c', l) -> cat_wf d c -> refs_closed c -> db_ok D -> unused c D ->
  runs (engine_of d) (l ++ cat_add_constraints d c') D (plus_cat d c D) /\ db_ok (plus_cat d c D).
Proof.
  intros H W RC HD U. unfold cat_create in H. assert (Cs := cat_sort_correct c (proj1 (NoDup_ListNoDup _) (cw_names _ _ W))).
  destruct (cat_sort c) as [c1|] eqn:E1; simpl in H; [|discriminate]. destruct (concat_res (create_objects d) c1) as [os|] eqn:E2; simpl in H; [|discriminate].
  injection H as <- <-. destruct Cs as [Sort _]. assert (P := proj1 Sort).
  assert (W1 := wf_perm d c c1 P W).
  assert (U1 : unused c1 D).
  { split; [intros k; rewrite <- (keys_perm c c1 k P); apply (proj1 U)|]. intros n I. apply (proj2 U). eapply Permutation_in; [symmetry; exact P|exact I]. }
  assert (PC : plus_cat d c1 D = plus_cat d c D).
  { unfold plus_cat. rewrite (schemas_perm c c1 P). f_equal. f_equal. apply map_eq. intros k.
    assert (G : forall x, cat_objs d c1 !! k = Some x <-> cat_objs d c !! k = Some x).
    { intros x. rewrite !cat_objs_lookup by assumption. setoid_rewrite (is_ c c1 P). reflexivity. }
    destruct (cat_objs d c1 !! k) as [x|] eqn:Z1, (cat_objs d c !! k) as [y|] eqn:Z2; try reflexivity.
    - symmetry. now apply G.
    - symmetry. now apply G.
    - now apply G. }
  assert (X := create_exec d c1 D W1 U1 os E2). rewrite PC in X.
  apply concat_res_ok in E2 as [HO ->].
  destruct (creation_runs (engine_of d) _ D _ HD X) as (R1 & R2 & _); [| |split; [exact R1|exact R2]].
  - intros s Hs. apply in_app_or in Hs as [Hs|Hs]; [apply in_app_or in Hs as [Hs|Hs]|].
    + apply in_flat_map in Hs as (n & _ & Hs). unfold create_schema in Hs. destruct (n_name n); [destruct Hs|]. cbn [In] in Hs. destruct Hs as [<-|[]]. exact I.
    + apply in_concat in Hs as (l & Hl & Hs). apply in_map_iff in Hl as (n & <- & In_). eapply (obj_creation d c1); eauto.
    + unfold cat_add_constraints, ns_add_constraints in Hs. apply in_flat_map in Hs as (n & In_ & Hs). apply in_flat_map in Hs as (x & Ix & Hs).
      destruct (add_constraints_stmts d x s Hs) as (acts & -> & Ha & _). exact Ha.
  - intros l1 s l2 E. exact (okl_script d c c1 D Sort W RC HO l1 s l2 E).
Qed.
Print Assumptions create_runs.
