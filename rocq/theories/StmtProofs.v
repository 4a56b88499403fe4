(** What each statement of a mutation script can be. *)
From Verif Require Import PyStr QuoteModel ObjectDict ObjectDictSpec ObjectDictProofs Types Objects SqlAst Ddl Mutate DbSpec CatSpec MutSpec StmtSpec EqProofs NoopProofs KeySpec SortProofs.
From Coq Require Import String List Permutation.
Import ListNotations.
Open Scope list_scope.

Lemma concat_res_in {A B} (f : A -> res (list B)) l r x : concat_res f l = Ok r -> In x r -> exists a ra, In a l /\ f a = Ok ra /\ In x ra.
Proof.
  unfold concat_res. intros H Ix. destruct (map_res f l) as [rs|] eqn:E; simpl in H; [|discriminate]. injection H as <-. apply in_concat in Ix as (ra & Ia & Ix).
  revert rs E Ia. induction l as [|a l IH]; intros rs E Ia; simpl in E; [injection E as <-; destruct Ia|].
  destruct (f a) as [b|] eqn:Ea; simpl in E; [|discriminate]. destruct (map_res f l) as [bs|]; simpl in E; [|discriminate]. injection E as <-.
  destruct Ia as [->|Ia]; [exists a, ra; auto with datatypes|]. destruct (IH bs eq_refl Ia) as (a' & ra' & I1 & I2 & I3). exists a', ra'. auto with datatypes.
Qed.
Lemma map_res_inv {A B} (f : A -> res B) l r x : map_res f l = Ok r -> In x r -> exists a, In a l /\ f a = Ok x.
Proof.
  revert r. induction l as [|a l IH]; intros r E Ix; simpl in E; [injection E as <-; destruct Ix|].
  destruct (f a) as [b|] eqn:Ea; simpl in E; [|discriminate]. destruct (map_res f l) as [bs|]; simpl in E; [|discriminate]. injection E as <-.
  destruct Ix as [->|Ix]; [exists a; auto with datatypes|]. destruct (IH bs eq_refl Ix) as (a' & I1 & I2). exists a'. auto with datatypes.
Qed.
Lemma table_error_ok {A} (r : res A) a : table_error r = Ok a -> r = Ok a.
Proof. destruct r; simpl; [congruence|]. destruct (String.eqb e "ColumnFormationError"); discriminate. Qed.
Lemma alter_table_in d q acts st : In st (alter_table d q acts) -> exists acts', st = SAlterTable q acts' /\ incl acts' acts.
Proof.
  unfold alter_table. intros H.
  assert (G1 : st = SAlterTable q acts -> exists acts', st = SAlterTable q acts' /\ incl acts' acts) by (intros ->; eexists; split; [reflexivity|apply incl_refl]).
  assert (G2 : In st (map (fun a => SAlterTable q [a]) acts) -> exists acts', st = SAlterTable q acts' /\ incl acts' acts).
  { intros Hi. apply in_map_iff in Hi as (a & <- & Ia). eexists. split; [reflexivity|]. intros b [<-|[]]. exact Ia. }
  destruct d; auto; destruct H as [<-|[]]; auto.
Qed.

(** *** one table *)
Definition common_col (s t : table) (a b : column) : Prop := In a (t_columns s) /\ In b (t_columns t) /\ c_name a = c_name b.
Lemma inter_common s t p : In p (od_intersection c_name (t_columns s) (t_columns t)) -> common_col s t (fst p) (snd p).
Proof.
  assert (G : forall l, (forall x, In x l -> In x (t_columns s)) -> In p (od_intersection c_name l (t_columns t)) -> common_col s t (fst p) (snd p)); [|now apply G].
  induction l as [|z l IH]; intros Hl I; [destruct I|]. simpl in I. destruct (od_get c_name (c_name z) (t_columns t)) as [w|] eqn:E.
  - destruct I as [<-|I]; [|apply IH; [intros; apply Hl; now right|exact I]]. apply get_some in E as [E1 E2]. split; [apply Hl; now left|]. split; [exact E1|now symmetry].
  - apply IH; [intros; apply Hl; now right|exact I].
Qed.
Lemma is_migrated_spec d a b : is_column_migrated d a b = true -> c_type a <> c_type b.
Proof.
  unfold is_column_migrated. destruct (col_eqb a b || type_eqb (c_type a) (c_type b))%bool eqn:E; [discriminate|]. intros _ Z. rewrite Z in E.
  assert (T : type_eqb (c_type b) (c_type b) = true) by now apply type_eqb_eq. rewrite T in E. now rewrite orb_true_r in E.
Qed.

Lemma create_column_name d c a : create_column d c = Ok a -> exists cd, a = AAddColumn cd /\ cd_name cd = c_name c.
Proof.
  unfold create_column. destruct (column_def d c) as [cd|] eqn:E; simpl; [|discriminate]. intros [= <-]. exists cd. split; [reflexivity|].
  unfold column_def in E. repeat match type of E with
  | bind ?z _ = _ => destruct z; simpl in E; [|discriminate]
  | match ?z with _ => _ end = _ => destruct z; simpl in E; try discriminate
  end; injection E as <-; reflexivity.
Qed.
Lemma mutate_column_calm d a b acts : mutate_column d a b = Ok acts -> forall x n, In x acts -> ~ disturbs n x.
Proof.
  intros H x n Ix. destruct d; simpl in H.
  1,2,6,7: unfold mutate_column_base in H; destruct (col_eqb a b); [injection H as <-; destruct Ix|];
    match type of H with bind ?z _ = _ => destruct z; simpl in H; [|discriminate] end; injection H as <-;
    rewrite !in_app_iff in Ix;
    repeat match type of Ix with
    | _ \/ _ => destruct Ix as [Ix|Ix]
    | In _ (if ?c then _ else _) => destruct c
    | In _ (match ?c with _ => _ end) => destruct c
    | In _ [_] => destruct Ix as [<-|[]]
    | In _ [] => destruct Ix
    end; simpl; tauto.
  - unfold mutate_column_mysql in H. match type of H with bind ?z _ = _ => destruct z as [[]|]; simpl in H; [| |discriminate] end; [|injection H as <-; destruct Ix].
    destruct (column_def DMySQL b); simpl in H; [|discriminate]. injection H as <-. destruct Ix as [<-|[]]. simpl. tauto.
  - unfold mutate_column_mssql in H. destruct (negb _); [discriminate|]. destruct (_ || _)%bool; [|injection H as <-; destruct Ix].
    destruct (type_str (c_type b)); simpl in H; [|discriminate]. injection H as <-. destruct Ix as [<-|[]]. simpl. tauto.
  - unfold mutate_column_oracle in H. match type of H with bind ?z _ = _ => destruct z; simpl in H; [|discriminate] end.
    match type of H with match ?z with _ => _ end = _ => destruct z end; injection H as <-; [destruct Ix|]. destruct Ix as [<-|[]]. simpl. tauto.
Qed.

(** a column of both tables with the same type is not disturbed *)
Definition act_ok (s t : table) (a : action) : Prop :=
  forall u v, common_col s t u v -> c_type u = c_type v -> NoDup (map c_name (t_columns s)) -> NoDup (map c_name (t_columns t)) ->
  ~ In (c_name u) (map (fun c => deleted (c_name c)) (t_columns s)) -> ~ disturbs (c_name u) a.
Definition table_stmt (s t : table) (st : stmt) : Prop :=
  (exists acts, st = SAlterTable (t_name s) acts /\ forall a, In a acts -> act_ok s t a)
  \/ (exists c, st = SCommentTable (t_name t) c) \/ (exists n c, st = SCommentColumn (t_name t) n c) \/ (exists c, st = SMyTableComment (t_name t) c)
  \/ (exists q cols rows oc n cs rc, st = SInsert q cols rows oc /\ In (CForeign n cs q rc) (t_constraints t))
  \/ (exists q c n cs rc, st = SInsertDistinct q (t_name s) c /\ In (CForeign n cs q rc) (t_constraints t))
  \/ (exists u v q, common_col s t u v /\ c_type u <> c_type v /\ st = SUpdateLookup (t_name s) (c_name v) (deleted (c_name u)) q).

Lemma nodup_inj {A} (f : A -> string) l x y : NoDup (map f l) -> In x l -> In y l -> f x = f y -> x = y.
Proof. intros N Ix Iy E. assert (G1 := get_in f l x N Ix). assert (G2 := get_in f l y N Iy). congruence. Qed.
Lemma get_constraint_in t c r : get_constraint t c = Ok r -> exists n cs, In (CForeign n cs (fst r) (snd r)) (t_constraints t).
Proof.
  unfold get_constraint. destruct (find_reference (t_constraints t) c) as [r'|] eqn:E; [|discriminate]. intros [= <-].
  induction (t_constraints t) as [|k ks IH]; simpl in E; [discriminate|].
  destruct k as [n cs|n cs rt rc|n cs rs|n cn]; try (destruct (IH E) as (n' & cs' & I); exists n', cs'; now right).
  destruct (_ && _)%bool; [injection E as <-; exists n, cs; now left|]. destruct (IH E) as (n' & cs' & I). exists n', cs'. now right.
Qed.
Lemma mutate_table_in d s t l st : mutate_table d s t = Ok l -> In st l -> table_stmt s t st.
Proof.
  intros H Ist. unfold mutate_table in H. destruct (mutate_table_base d s t) as [b|] eqn:B; simpl in H; [|discriminate]. injection H as <-.
  assert (Base : In st b -> table_stmt s t st).
  { clear Ist. intros Ist. unfold mutate_table_base, check_identity in B. destruct (qid_eqb (t_name s) (t_name t)) eqn:En; cbn [bind] in B; [|discriminate].
    set (mig := filter (fun p => is_column_migrated d (fst p) (snd p)) (od_intersection c_name (t_columns s) (t_columns t))) in *.
    assert (Hm : forall p, In p mig -> common_col s t (fst p) (snd p) /\ c_type (fst p) <> c_type (snd p)).
    { intros p Ip. apply filter_In in Ip as [Ip M]. split; [now apply inter_common|]. now apply is_migrated_spec in M. }
    match type of B with bind ?z _ = _ => destruct z as [soft|] eqn:B1; cbn [bind] in B; [|discriminate] end. apply table_error_ok in B1.
    match type of B with bind ?z _ = _ => destruct z as [mc|] eqn:B2; cbn [bind] in B; [|discriminate] end. apply table_error_ok in B2.
    match type of B with bind ?z _ = _ => destruct z as [nc|] eqn:B3; cbn [bind] in B; [|discriminate] end. apply table_error_ok in B3.
    match type of B with bind ?z _ = _ => destruct z as [mv|] eqn:B4; cbn [bind] in B; [|discriminate] end. apply table_error_ok in B4.
    match type of B with bind ?z _ = _ => destruct z as [al|] eqn:B5; cbn [bind] in B; [|discriminate] end. apply table_error_ok in B5.
    match type of B with (if ?z then _ else _) = _ => destruct z; [discriminate|] end. injection B as <-.
    assert (Mname : forall p u v, In p mig -> common_col s t u v -> c_type u = c_type v -> NoDup (map c_name (t_columns s)) -> NoDup (map c_name (t_columns t)) -> c_name (fst p) <> c_name u).
    { intros p u v Ip (U1 & U2 & U3) Et N1 N2 Z. destruct (Hm p Ip) as [(M1 & M2 & M3) M4].
      assert (fst p = u) by (apply (nodup_inj c_name (t_columns s)); auto). assert (snd p = v) by (apply (nodup_inj c_name (t_columns t)); auto; congruence). congruence. }
    rewrite !in_app_iff in Ist. destruct Ist as [I|[I|[I|I]]].
    - destruct (concat_res_in _ _ _ _ B1 I) as (p & r & Ip & Hr & Ir). destruct (soft_drop_column d (fst p)) as [a|] eqn:Ea; simpl in Hr; [|discriminate]. injection Hr as <-.
      apply alter_table_in in Ir as (acts & -> & Ia). left. exists acts. split; [reflexivity|]. intros x Ix. apply Ia in Ix as [<-|[]].
      intros u v U Et N1 N2 _ Hd. apply (Mname p u v Ip U Et N1 N2).
      unfold soft_drop_column in Ea. destruct d; try (injection Ea as <-; exact Hd). destruct (column_def DMySQL (fst p)); simpl in Ea; [|discriminate]. injection Ea as <-. exact Hd.
    - assert (Hc : forall x, In x (mc ++ nc) -> act_ok s t x).
      { intros x Ix. apply in_app_or in Ix as [Ix|Ix].
        - destruct (map_res_inv _ _ _ _ B2 Ix) as (p & Ip & Hp). apply create_column_name in Hp as (cd & -> & Ec). intros u v U Et N1 N2 _ Hd. simpl in Hd.
          apply (Mname p u v Ip U Et N1 N2). destruct (Hm p Ip) as [(_ & _ & M) _]. congruence.
        - destruct (map_res_inv _ _ _ _ B3 Ix) as (c & Ic & Hc). apply create_column_name in Hc as (cd & -> & Ec). intros u v (U1 & _) _ _ _ _ Hd. simpl in Hd.
          apply difference_in in Ic as [_ Nc]. apply Nc. rewrite <- Ec, Hd. now apply in_map. }
      destruct (mc ++ nc) as [|x0 xs] eqn:E; [destruct I|]. apply alter_table_in in I as (acts & -> & Ia). left. exists acts. split; [reflexivity|]. intros x Ix. apply Hc. now apply Ia.
    - destruct (concat_res_in _ _ _ _ B4 I) as (p & r & Ip & Hr & Ir). destruct (Hm p Ip) as [M1 M2]. unfold migrate_column in Hr.
      destruct d; try (injection Hr as <-; destruct Ir); destruct (get_constraint t (c_name (snd p))) as [rf|] eqn:Er; simpl in Hr; try discriminate; injection Hr as <-;
        destruct (get_constraint_in _ _ _ Er) as (kn & kcs & Ik).
      + destruct Ir as [<-|[]]. do 6 right. exists (fst p), (snd p), (fst rf). auto.
      + apply in_app_or in Ir as [Ir|[<-|[]]]; [|do 6 right; exists (fst p), (snd p), (fst rf); auto].
        destruct (base_type (c_type (fst p))); try (destruct Ir; fail); destruct Ir as [<-|[]].
        * do 5 right. left. do 5 eexists. split; [reflexivity|exact Ik].
        * do 4 right. left. do 7 eexists. split; [reflexivity|exact Ik].
    - match type of I with In _ (match ?z with _ => _ end) => assert (Ha : forall x, In x z -> act_ok s t x) end.
      { intros x Ix. rewrite !in_app_iff in Ix. destruct Ix as [Ix|[Ix|[Ix|[Ix|Ix]]]].
        - apply in_map_iff in Ix as (p & <- & Ip). intros u v U Et N1 N2 Nd Hd. simpl in Hd. apply Nd. apply in_map_iff. exists (fst p). split; [exact Hd|]. apply (Hm p Ip).
        - destruct (concat_res_in _ _ _ _ B5 Ix) as (p & r & Ip & Hr & Ir). intros u v _ _ _ _ _. eapply mutate_column_calm; eauto.
        - apply in_map_iff in Ix as (c & <- & Ic). apply difference_in in Ic as [Ic Nc]. intros u v (U1 & U2 & U3) _ _ _ _ Hd. apply Nc.
          assert (c_name c = c_name u) by (unfold drop_column in Hd; destruct d; try exact Hd; destruct (c_default c); exact Hd). rewrite H, U3. now apply in_map.
        - apply in_map_iff in Ix as (k & <- & _). intros u v _ _ _ _ _ [].
        - apply in_map_iff in Ix as (k & <- & _). intros u v _ _ _ _ _ []. }
      match type of I with In _ (match ?z with _ => _ end) => destruct z as [|x0 xs] eqn:E end; [destruct I|]. apply alter_table_in in I as (acts & -> & Ia).
      left. exists acts. split; [reflexivity|]. intros x Ix. apply Ha. now apply Ia. }
  destruct d; auto.
  - apply in_app_or in Ist as [Ist|Ist]; [auto|]. apply in_app_or in Ist as [Ist|Ist].
    + unfold pg_column_comments in Ist. apply in_flat_map in Ist as (c & _ & Ist). destruct (comment_change _ _) as [x|]; [|destruct Ist]. destruct Ist as [<-|[]]. right. right. left. eauto.
    + destruct (comment_change _ _) as [x|]; [|destruct Ist]. destruct Ist as [<-|[]]. right. left. eauto.
  - apply in_app_or in Ist as [Ist|Ist]; [auto|]. unfold my_table_comment in Ist. do 3 right. left. destruct (short_desc (t_desc s)), (short_desc (t_desc t)); try (destruct Ist as [<-|[]]; eauto; fail); try (destruct Ist; fail).
    destruct (String.eqb _ _); [destruct Ist|]. destruct Ist as [<-|[]]. eauto.
  - apply in_app_or in Ist as [Ist|Ist]; [|auto].
    assert (Hd : forall x, In x (ms_defaults s t) -> act_ok s t x).
    { intros x Ix. unfold ms_defaults in Ix. apply in_flat_map in Ix as (p & _ & Ix). destruct (os_eqb _ _); [destruct Ix|]. apply in_app_or in Ix as [Ix|Ix].
      - destruct (c_default (fst p)); [destruct Ix as [<-|[]]; intros u v _ _ _ _ _ []|destruct Ix].
      - destruct (c_default (snd p)); [destruct Ix as [<-|[]]; intros u v _ _ _ _ _ []|destruct Ix]. }
    destruct (ms_defaults s t) as [|x0 xs] eqn:E; [destruct Ist|]. apply alter_table_in in Ist as (acts & -> & Ia). left. exists acts. split; [reflexivity|]. intros x Ix. apply Hd. now apply Ia.
Qed.

(** *** namespaces and catalogs *)
Lemma create_table_in d x l st : create_table d x = Ok l -> In st l -> stmt_target st = Some (t_name x) /\ ~ destroys st /\ (forall acts, st <> SAlterTable (t_name x) acts).
Proof.
  unfold create_table. destruct (map_res (column_def d) (t_columns x)) as [cols|]; [|discriminate]. simpl. destruct (enum_insert x) as [ins|] eqn:E; [|discriminate]. simpl. intros [= <-] [<-|I]; [repeat split; auto; discriminate|].
  apply in_app_or in I as [I|I].
  - unfold create_comments in I. destruct d; try (destruct I; fail). apply in_app_or in I as [I|I].
    + destruct (t_desc x); [destruct I as [<-|[]]|destruct I]. repeat split; auto; discriminate.
    + apply in_flat_map in I as (c & _ & I). destruct (c_desc c); [destruct I as [<-|[]]|destruct I]. repeat split; auto; discriminate.
  - unfold enum_insert in E. destruct (t_enum x); [|injection E as <-; destruct I]. destruct (get_value_columns x None); simpl in E; [|discriminate]. destruct (map_res constant l); simpl in E; [|discriminate]. injection E as <-.
    destruct I as [<-|[]]. repeat split; auto; discriminate.
Qed.
Lemma create_struct_in d x l st : create_struct d x = Ok l -> In st l -> stmt_target st = Some (s_name x) /\ ~ destroys st.
Proof.
  unfold create_struct. destruct (map_res _ (s_members x)) as [ms|]; [|discriminate]. simpl. intros [= <-] [<-|I]; [auto|].
  destruct d; try (destruct I; fail). destruct (s_desc x); [destruct I as [<-|[]]|destruct I]. auto.
Qed.
Lemma add_constraints_in d x st : In st (add_constraints d x) -> stmt_target st = Some (t_name x) /\ ~ destroys st.
Proof.
  unfold add_constraints. destruct (table_constraints x); [intros []|]. intros H.
  assert (G : forall acts, In st (alter_table d (t_name x) acts) -> stmt_target st = Some (t_name x) /\ ~ destroys st) by (intros acts I; apply alter_table_in in I as (a & -> & _); auto).
  destruct d; eauto. destruct H as [<-|[]]. auto.
Qed.
Lemma mutate_enum_in s t l st : mutate_enum s t = Ok l -> In st l -> stmt_target st = Some (e_name s) /\ ~ destroys st.
Proof.
  unfold mutate_enum. destruct (check_identity _ _); simpl; [|discriminate]. destruct (filter _ (e_values s)); [|discriminate]. intros [= <-] I. apply in_map_iff in I as (v & <- & _). auto.
Qed.
Lemma mutate_struct_in d s t l st : mutate_struct d s t = Ok l -> In st l -> (stmt_target st = Some (s_name s) \/ stmt_target st = Some (s_name t)) /\ ~ destroys st.
Proof.
  unfold mutate_struct. destruct (mutate_struct_base s t) as [b|] eqn:B; simpl; [|discriminate]. intros [= <-] I. apply in_app_or in I as [I|I].
  - unfold mutate_struct_base in B. destruct (check_identity _ _); simpl in B; [|discriminate]. destruct (concat_res _ _); simpl in B; [|discriminate]. destruct (map_res _ _); simpl in B; [|discriminate]. injection B as <-.
    unfold struct_alter in I. match type of I with In _ (match ?z with _ => _ end) => destruct z end; [destruct I|]. destruct I as [<-|[]]. auto.
  - destruct d; try (destruct I; fail). destruct (comment_change _ _); [destruct I as [<-|[]]|destruct I]. auto.
Qed.
Lemma table_stmt_calm s t st : table_stmt s t st -> ~ destroys st.
Proof.
  intros [(a & -> & _)|[(c & ->)|[(n & c & ->)|[(c & ->)|[(q & cs & rows & oc & n & k & rc & -> & _)|[(q & c & n & k & rc & -> & _)|(u & v & q & _ & _ & ->)]]]]]]; simpl; tauto.
Qed.
Lemma in_diff {A} (key : A -> string) a b x : In x (od_difference key a b) -> In x a /\ ~ In (key x) (map key b).
Proof. apply difference_in. Qed.
Lemma in_inter {A} (key : A -> string) a b p : In p (od_intersection key a b) -> In (fst p) a /\ In (snd p) b /\ key (fst p) = key (snd p).
Proof.
  induction a as [|z a IH]; intros I; [destruct I|]. simpl in I. destruct (od_get key (key z) b) as [w|] eqn:E.
  - destruct I as [<-|I]; [|destruct (IH I) as (A1 & A2 & A3); auto with datatypes]. apply get_some in E as [E1 E2]. simpl. auto.
  - destruct (IH I) as (A1 & A2 & A3). auto with datatypes.
Qed.

(** statements of a namespace mutation *)
Inductive ns_stmt (d : dialect) (o : options) (s t : namespace) (st : stmt) : Prop :=
| ns_ctable x : In x (n_tables t) -> ~ In (t_key x) (map t_key (n_tables s)) -> stmt_target st = Some (t_name x) -> ~ destroys st -> ns_stmt d o s t st
| ns_cstruct x : In x (n_structs t) -> ~ In (s_key x) (map s_key (n_structs s)) -> stmt_target st = Some (s_name x) -> ~ destroys st -> ns_stmt d o s t st
| ns_cenum x : In x (n_enums t) -> ~ In (e_key x) (map e_key (n_enums s)) -> stmt_target st = Some (e_name x) -> ~ destroys st -> ns_stmt d o s t st
| ns_soft e x : In e (n_enums s) -> ~ In (e_key e) (map e_key (n_enums t)) -> In x (n_tables t) -> ~ In (t_key x) (map t_key (n_tables s)) -> e_name e = t_name x -> st = soft_drop_enum e -> ns_stmt d o s t st
| ns_menum a b : In a (n_enums s) -> In b (n_enums t) -> e_key a = e_key b -> stmt_target st = Some (e_name a) -> ~ destroys st -> ns_stmt d o s t st
| ns_mstruct a b : In a (n_structs s) -> In b (n_structs t) -> s_key a = s_key b -> (stmt_target st = Some (s_name a) \/ stmt_target st = Some (s_name b)) -> ~ destroys st -> ns_stmt d o s t st
| ns_mtable a b l : In a (n_tables s) -> In b (n_tables t) -> t_key a = t_key b -> mutate_table d a b = Ok l -> In st l -> ns_stmt d o s t st
| ns_dtable x : allow_drop_table o = true -> In x (n_tables s) -> ~ In (t_key x) (map t_key (n_tables t)) -> st = drop_table x -> ns_stmt d o s t st
| ns_dstruct x : allow_drop_struct o = true -> In x (n_structs s) -> ~ In (s_key x) (map s_key (n_structs t)) -> st = drop_struct x -> ns_stmt d o s t st
| ns_denum x : allow_drop_enum o = true -> In x (n_enums s) -> ~ In (e_key x) (map e_key (n_enums t)) ->
    st = drop_enum x \/ (st = hard_drop_enum x /\ exists y, In y (n_tables t) /\ e_name x = t_name y) -> ns_stmt d o s t st.
Lemma mutate_namespace_in d o s t l st : mutate_namespace d o s t = Ok l -> In st l -> ns_stmt d o s t st.
Proof.
  unfold mutate_namespace. destruct (negb (String.eqb (n_name s) (n_name t))); [discriminate|]. intros H I.
  match type of H with bind ?z _ = _ => destruct z as [cs|] eqn:B1; cbn [bind] in H; [|discriminate] end.
  match type of H with bind ?z _ = _ => destruct z as [ct|] eqn:B2; cbn [bind] in H; [|discriminate] end.
  match type of H with bind ?z _ = _ => destruct z as [me|] eqn:B3; cbn [bind] in H; [|discriminate] end.
  match type of H with bind ?z _ = _ => destruct z as [ms|] eqn:B4; cbn [bind] in H; [|discriminate] end.
  match type of H with bind ?z _ = _ => destruct z as [mt|] eqn:B5; cbn [bind] in H; [|discriminate] end.
  injection H as <-. rewrite !in_app_iff in I.
  destruct I as [I|[I|[I|[I|[I|[I|[I|[I|[I|[I|[I|I]]]]]]]]]]].
  - apply in_map_iff in I as (x & <- & Ix). apply in_diff in Ix as [Ix Nx]. eapply ns_cenum; eauto.
  - destruct (concat_res_in _ _ _ _ B1 I) as (x & r & Ix & Hr & Ir). apply in_diff in Ix as [Ix Nx]. destruct (create_struct_in d x r st Hr Ir). eapply ns_cstruct; eauto.
  - apply in_map_iff in I as (e & <- & Ie). apply in_flat_map in Ie as (e' & Ie & Hx). apply in_map_iff in Hx as (x & -> & Hx). apply filter_In in Hx as [Hx Eq]. apply qid_eqb_eq in Eq.
    apply in_diff in Ie as [Ie Ne]. apply in_diff in Hx as [Hx Nx]. eapply ns_soft; eauto.
  - destruct (concat_res_in _ _ _ _ B2 I) as (x & r & Ix & Hr & Ir). apply in_diff in Ix as [Ix Nx]. destruct (create_table_in d x r st Hr Ir) as (T1 & T2 & _). eapply ns_ctable; eauto.
  - apply in_flat_map in I as (x & Ix & Ir). apply in_diff in Ix as [Ix Nx]. destruct (add_constraints_in d x st Ir). eapply ns_ctable; eauto.
  - apply in_flat_map in I as (e & Ie & Hx). apply in_map_iff in Hx as (x & <- & Hx). apply filter_In in Hx as [Hx Eq]. apply in_diff in Hx as [Hx Nx]. eapply ns_ctable; eauto.
  - destruct (concat_res_in _ _ _ _ B3 I) as (p & r & Ip & Hr & Ir). apply in_inter in Ip as (I1 & I2 & I3). destruct (mutate_enum_in _ _ r st Hr Ir). eapply ns_menum; eauto.
  - destruct (concat_res_in _ _ _ _ B4 I) as (p & r & Ip & Hr & Ir). apply in_inter in Ip as (I1 & I2 & I3). destruct (mutate_struct_in d _ _ r st Hr Ir). eapply ns_mstruct; eauto.
  - destruct (concat_res_in _ _ _ _ B5 I) as (p & r & Ip & Hr & Ir). apply in_inter in Ip as (I1 & I2 & I3). eapply ns_mtable; eauto.
  - destruct (allow_drop_table o) eqn:E; [|destruct I]. apply in_map_iff in I as (x & <- & Ix). apply in_diff in Ix as [Ix Nx]. eapply ns_dtable; eauto.
  - destruct (allow_drop_struct o) eqn:E; [|destruct I]. apply in_map_iff in I as (x & <- & Ix). apply in_diff in Ix as [Ix Nx]. eapply ns_dstruct; eauto.
  - destruct (allow_drop_enum o) eqn:E; [|destruct I]. apply in_map_iff in I as (x & <- & Ix). apply in_diff in Ix as [Ix Nx]. eapply ns_denum; eauto.
    match goal with |- (if ?z then _ else _) = _ \/ _ => destruct z eqn:Z end; [|now left]. right. split; [reflexivity|].
    apply existsb_exists in Z as (e & Ie & Ee). apply enum_eqb_eq in Ee. subst e. apply in_flat_map in Ie as (e' & Ie & Hx). apply in_map_iff in Hx as (y & -> & Hy). apply filter_In in Hy as [Hy Eq]. apply qid_eqb_eq in Eq.
    apply in_diff in Hy as [Hy _]. eauto.
Qed.

Inductive cat_stmt (d : dialect) (o : options) (s t : catalog) (st : stmt) : Prop :=
| cs_schema n : In n t -> ~ In (n_name n) (map n_name s) -> (exists b, st = SCreateSchema b (n_name n)) -> cat_stmt d o s t st
| cs_create n q : In n t -> ~ In (n_name n) (map n_name s) -> stmt_target st = Some q -> In q (ns_names n) -> ~ destroys st -> cat_stmt d o s t st
| cs_mutate a b : common_ns s t a b -> ns_stmt d o a b st -> cat_stmt d o s t st
| cs_uncons n x acts : removed_ns s t n -> In x (n_tables n) -> st = SAlterTable (t_name x) acts -> (forall a, In a acts -> exists k, a = ADropConstraint k) -> cat_stmt d o s t st
| cs_dtable n x : allow_drop_namespace o = true -> removed_ns s t n -> In x (n_tables n) -> st = SDropTable (t_name x) -> cat_stmt d o s t st
| cs_dtype n q : allow_drop_namespace o = true -> removed_ns s t n -> In q (map e_name (n_enums n) ++ map s_name (n_structs n)) -> st = SDropType q -> cat_stmt d o s t st
| cs_dschema n c : allow_drop_namespace o = true -> removed_ns s t n -> st = SDropSchema c (n_name n) -> cat_stmt d o s t st.

Lemma create_objects_in d n l st : create_objects d n = Ok l -> In st l -> exists q, stmt_target st = Some q /\ In q (ns_names n) /\ ~ destroys st.
Proof.
  unfold create_objects. intros H I.
  match type of H with bind ?z _ = _ => destruct z as [cs|] eqn:B1; cbn [bind] in H; [|discriminate] end.
  match type of H with bind ?z _ = _ => destruct z as [ct|] eqn:B2; cbn [bind] in H; [|discriminate] end.
  injection H as <-. rewrite !in_app_iff in I. unfold ns_names. destruct I as [I|[I|I]].
  - apply in_map_iff in I as (x & <- & Ix). exists (e_name x). split; [reflexivity|]. split; [|auto]. apply in_or_app. left. now apply in_map.
  - destruct (concat_res_in _ _ _ _ B1 I) as (x & r & Ix & Hr & Ir). destruct (create_struct_in d x r st Hr Ir). exists (s_name x). split; [auto|]. split; [|auto]. apply in_or_app. right. apply in_or_app. left. now apply in_map.
  - destruct (concat_res_in _ _ _ _ B2 I) as (x & r & Ix & Hr & Ir). destruct (create_table_in d x r st Hr Ir) as (T1 & T2 & _). exists (t_name x). split; [auto|]. split; [|auto]. apply in_or_app. right. apply in_or_app. right. now apply in_map.
Qed.
Lemma mutate_sorted_in d o s t l st : mutate_sorted d o s t = Ok l -> In st l -> cat_stmt d o s t st.
Proof.
  unfold mutate_sorted. intros H I.
  match type of H with bind ?z _ = _ => destruct z as [cs|] eqn:B1; cbn [bind] in H; [|discriminate] end.
  match type of H with bind ?z _ = _ => destruct z as [ct|] eqn:B2; cbn [bind] in H; [|discriminate] end.
  injection H as <-. rewrite !in_app_iff in I. destruct I as [I|[I|[I|[I|[I|I]]]]].
  - apply in_flat_map in I as (n & In_ & I). apply in_diff in In_ as [In_ Nn]. unfold create_schema in I. destruct (n_name n) eqn:E; [destruct I|]. destruct I as [<-|[]]. eapply cs_schema; [exact In_|congruence|]. rewrite E. eauto.
  - destruct (concat_res_in _ _ _ _ B1 I) as (n & r & In_ & Hr & Ir). apply in_diff in In_ as [In_ Nn]. destruct (create_objects_in d n r st Hr Ir) as (q & Q1 & Q2 & Q3). eapply cs_create; eauto.
  - apply in_flat_map in I as (n & In_ & I). apply in_diff in In_ as [In_ Nn]. unfold ns_add_constraints in I. apply in_flat_map in I as (x & Ix & I). destruct (add_constraints_in d x st I).
    eapply cs_create; eauto. unfold ns_names. apply in_or_app. right. apply in_or_app. right. now apply in_map.
  - destruct (concat_res_in _ _ _ _ B2 I) as (p & r & Ip & Hr & Ir). apply in_inter in Ip as (I1 & I2 & I3). eapply cs_mutate; [split; [exact I1|split; [exact I2|exact I3]]|]. eapply mutate_namespace_in; eauto.
  - apply in_flat_map in I as (n & In_ & I). apply in_diff in In_ as [In_ Nn]. unfold ns_drop_constraints in I. apply in_flat_map in I as (x & Ix & I). unfold drop_constraints in I.
    destruct (table_constraints x) eqn:E; [destruct I|]. destruct I as [<-|[]]. eapply (cs_uncons d o s t _ n x); [split; auto|exact Ix|reflexivity|]. rewrite <- E. intros a Ia. apply in_map_iff in Ia as (k & <- & _). eauto.
  - destruct (allow_drop_namespace o) eqn:Eo; [|destruct I]. apply in_app_or in I as [I|I]; apply in_flat_map in I as (n & In_ & I); apply in_diff in In_ as [In_ Nn].
    + unfold drop_objects in I. rewrite !in_app_iff in I. destruct I as [I|[I|I]]; apply in_map_iff in I as (x & <- & Ix); apply in_rev in Ix.
      * eapply cs_dtable; eauto. split; auto.
      * apply (cs_dtype d o s t _ n (s_name x) Eo); [split; auto|apply in_or_app; right; now apply in_map|reflexivity].
      * apply (cs_dtype d o s t _ n (e_name x) Eo); [split; auto|apply in_or_app; left; now apply in_map|reflexivity].
    + unfold drop_schema in I. destruct (n_name n) eqn:E; [destruct I|]. destruct I as [<-|[]]. eapply (cs_dschema d o s t _ n); [auto|split; [auto|congruence]|]. rewrite E. reflexivity.
Qed.
Lemma cat_stmt_perm d o s s' t t' st : Permutation s s' -> Permutation t t' -> cat_stmt d o s' t' st -> cat_stmt d o s t st.
Proof.
  intros Ps Pt. assert (Is : forall n, In n s' -> In n s) by (intros n; apply Permutation_in; now symmetry). assert (It : forall n, In n t' -> In n t) by (intros n; apply Permutation_in; now symmetry).
  assert (Ns : forall x, ~ In x (map n_name s') -> ~ In x (map n_name s)). { intros x H Z. apply H. eapply Permutation_in; [apply Permutation_map; exact Ps|exact Z]. }
  assert (Nt : forall x, ~ In x (map n_name t') -> ~ In x (map n_name t)). { intros x H Z. apply H. eapply Permutation_in; [apply Permutation_map; exact Pt|exact Z]. }
  assert (R : forall n, removed_ns s' t' n -> removed_ns s t n) by (intros n [A B]; split; auto).
  intros [n I N H|n q I N H1 H2 H3|a b (A1 & A2 & A3) H|n x acts H I H1 H2|n x H1 H2 H3 H4|n q H1 H2 H3 H4|n c H1 H2 H3].
  - eapply cs_schema; eauto.
  - eapply cs_create; eauto.
  - eapply cs_mutate; [split; eauto|exact H].
  - eapply cs_uncons; eauto.
  - eapply cs_dtable; eauto.
  - eapply cs_dtype; eauto.
  - eapply cs_dschema; eauto.
Qed.
Theorem mutate_catalog_in d o s t s' t' l st : NoDup (map n_name s) -> NoDup (map n_name t) ->
  mutate_catalog d o s t = Ok (s', t', l) -> In st l -> cat_stmt d o s t st.
Proof.
  intros N1 N2 H I. unfold mutate_catalog in H.
  assert (Cs := cat_sort_correct s N1). assert (Ct := cat_sort_correct t N2).
  destruct (cat_sort s) as [s1|] eqn:E1; simpl in H; [|discriminate].
  destruct (cat_sort t) as [t1|] eqn:E2; simpl in H; [|discriminate].
  destruct (mutate_sorted d o s1 t1) as [l1|] eqn:E3; simpl in H; [|discriminate]. injection H as <- <- <-.
  destruct Cs as [[Cs _] _], Ct as [[Ct _] _]. eapply cat_stmt_perm; [exact Cs|exact Ct|]. eapply mutate_sorted_in; eauto.
Qed.
Print Assumptions mutate_catalog_in.
