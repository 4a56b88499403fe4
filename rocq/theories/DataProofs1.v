(** Stored rows under a mutation script: cells of retained columns. *)
From Verif Require Import PyStr QuoteModel ObjectDict ObjectDictSpec ObjectDictProofs Types Objects SqlAst Ddl Mutate DbSpec CatSpec MutSpec StmtSpec EqProofs NoopProofs KeySpec SortProofs StmtProofs StmtProofs2 DataSpec.
From Verif Require Import TabProofs3.
From stdpp Require Import gmap strings.
Open Scope list_scope.

Lemma set_cell_eq r n v : set_cell r n v n = v.
Proof. unfold set_cell. now rewrite String.eqb_refl. Qed.
Lemma set_cell_ne r n v c : c <> n -> set_cell r n v c = r c.
Proof. intros H. unfold set_cell. now rewrite (proj2 (String.eqb_neq c n) H). Qed.

(** the action leaves column [c] alone, or converts it to the type it has *)
Definition calm (c : string) (ty : sqltype) (idn : bool) (a : action) : Prop :=
  match a with
  | AAddColumn cd => cd_name cd <> c
  | ADropColumn n | ADropDefaultColumn _ n => n <> c
  | ARenameColumn n m => n <> c /\ m <> c
  | AChangeColumn n cd => n <> c /\ cd_name cd <> c
  | ASetType n t => n = c -> t = ty
  | AModifyColumn cd => cd_name cd = c -> cd_type cd = ty /\ cd_identity cd = idn
  | AMsAlter n t _ => n = c -> t = ty
  | AOraModify n cs => n = c -> forall t, In (OSetType t) cs -> t = ty
  | _ => True
  end.
Definition cell_fits (S : server) (ty : sqltype) (v : cell) : Prop := forall w, v = Some w -> sv_fits S ty w.

Section Rows.
  Context (S : server) (L : lawful S).
  Lemma converted_same ty v v' : converted S ty v v' -> cell_fits S ty v -> v' = v.
  Proof. intros C F. destruct v as [x|]; simpl in C; [|exact C]. destruct C as (y & -> & K). f_equal. exact (lw_cast _ L _ _ _ K (F _ eq_refl)). Qed.
  Lemma retyped_calm r n t r' c ty : retyped S r n t r' -> (n = c -> t = ty) -> cell_fits S ty (r c) -> r' c = r c.
  Proof.
    intros (v & K & E) T F. rewrite E. destruct (string_dec c n) as [->|N]; [|now apply set_cell_ne]. rewrite set_cell_eq.
    rewrite (T eq_refl) in K. now apply (converted_same ty).
  Qed.
  Lemma on_row_calm a r r' c ty idn : on_row S a r r' -> calm c ty idn a -> cell_fits S ty (r c) -> ~ numbered idn (r c) -> r' c = r c.
  Proof.
    intros H K F N. destruct a; simpl in H, K; try (exact (H c)); try (eapply retyped_calm; eauto; fail).
    - destruct H as (v & _ & E). rewrite E. apply set_cell_ne. congruence.
    - rewrite H. apply set_cell_ne. congruence.
    - rewrite H. apply set_cell_ne. congruence.
    - destruct K as [K1 K2]. rewrite H, set_cell_ne by congruence. apply set_cell_ne. congruence.
    - destruct K as [K1 K2]. destruct H as (v & _ & E). rewrite E, set_cell_ne by congruence. apply set_cell_ne. congruence.
    - destruct H as (v & C & E). rewrite E. destruct (string_dec c (cd_name c0)) as [->|Q]; [|now apply set_cell_ne].
      rewrite set_cell_eq. destruct (K eq_refl) as [K1 K2]. destruct C as [C|C]; [rewrite K1 in C; now apply (converted_same ty)|]. rewrite K2 in C. contradiction.
    - destruct H as [(t & I & H)|(_ & H)]; [|exact (H c)]. apply (retyped_calm r n t r' c ty H); auto.
  Qed.
  (** rows keep their cells in the columns of [P] *)
  Definition keeps (P : string -> sqltype -> bool -> Prop) (r r' : record) : Prop :=
    forall c ty idn, P c ty idn -> cell_fits S ty (r c) -> ~ numbered idn (r c) -> r' c = r c.
  Lemma keeps_refl P r : keeps P r r.
  Proof. intros c ty idn _ _ _. reflexivity. Qed.
  Lemma keeps_trans P r s t : keeps P r s -> keeps P s t -> keeps P r t.
  Proof. intros A B c ty idn H F N. rewrite <- (A c ty idn H F N). apply (B c ty idn H); rewrite (A c ty idn H F N); auto. Qed.
  Lemma on_rows_keeps (P : string -> sqltype -> bool -> Prop) acts : (forall a, In a acts -> forall c ty idn, P c ty idn -> calm c ty idn a) ->
    forall rows rows', on_rows S acts rows rows' -> Forall2 (keeps P) rows rows'.
  Proof.
    induction acts as [|a acts IH]; intros C rows rows' H; simpl in H.
    - subst. clear. induction rows; constructor; auto. apply keeps_refl.
    - destruct H as (mid & H1 & H2). apply IH in H2; [|intros; eapply C; eauto; now right].
      assert (H1' : Forall2 (keeps P) rows mid).
      { eapply Forall2_impl; [exact H1|]. intros r r' Hr c ty idn Hp F N. eapply on_row_calm; eauto. eapply C; eauto. now left. }
      clear H1 C IH. revert mid rows' H1' H2. induction rows; intros mid rows' A B; inversion A; subst; inversion B; subst; constructor; eauto using keeps_trans.
  Qed.
  (** rows may be added at the end *)
  Definition extends (P : string -> sqltype -> bool -> Prop) (rows rows' : list record) : Prop :=
    exists old new, rows' = old ++ new /\ Forall2 (keeps P) rows old.
  Lemma keeps_all P rows : Forall2 (keeps P) rows rows.
  Proof. induction rows; constructor; auto. apply keeps_refl. Qed.
  Lemma extends_same P rows rows' : Forall2 (keeps P) rows rows' -> extends P rows rows'.
  Proof. intros H. exists rows', []. rewrite app_nil_r. auto. Qed.
  Lemma extends_refl P rows : extends P rows rows.
  Proof. apply extends_same, keeps_all. Qed.
  Lemma forall2_keeps_trans P a b c : Forall2 (keeps P) a b -> Forall2 (keeps P) b c -> Forall2 (keeps P) a c.
  Proof. revert b c. induction a; intros b c A B; inversion A; subst; inversion B; subst; constructor; eauto using keeps_trans. Qed.
  Lemma extends_trans P a b c : extends P a b -> extends P b c -> extends P a c.
  Proof.
    intros (o1 & n1 & -> & F1) (o2 & n2 & -> & F2). apply Forall2_app_inv_l in F2 as (p & q & Fp & Fq & ->).
    exists p, (q ++ n2). split; [now rewrite app_assoc|]. eapply forall2_keeps_trans; eauto.
  Qed.
  Lemma insert_one_extends cols oc v rows rows' : insert_one S cols oc v rows rows' -> exists new, rows' = rows ++ new.
  Proof. intros [(r & _ & -> & _)|(_ & -> & _)]; [eauto|]. exists []. now rewrite app_nil_r. Qed.
  Lemma insert_rows_extends cols oc vs : forall rows rows', insert_rows S cols oc vs rows rows' -> exists new, rows' = rows ++ new.
  Proof.
    induction vs as [|v vs IH]; intros rows rows' H; simpl in H; [subst; exists []; now rewrite app_nil_r|].
    destruct H as (mid & H1 & H2). apply insert_one_extends in H1 as (n1 & ->). apply IH in H2 as (n2 & ->). exists (n1 ++ n2). now rewrite app_assoc.
  Qed.
  Lemma new_extends P rows new : extends P rows (rows ++ new).
  Proof. exists rows, new. split; auto. apply keeps_all. Qed.
End Rows.

(** *** the actions of a table mutation *)
Lemma column_def_fields d c cd : column_def d c = Ok cd -> cd_name cd = c_name c /\ cd_type cd = c_type c /\ (d = DMySQL -> cd_identity cd = c_identity c).
Proof.
  unfold column_def. destruct (type_str (c_type c)); simpl; [|discriminate]. intros E.
  destruct d; repeat match type of E with
  | bind ?z _ = _ => destruct z; simpl in E; [|discriminate]
  | match ?z with _ => _ end = _ => destruct z; simpl in E; try discriminate
  end; injection E as <-; simpl; auto.
Qed.
(** what an action of an ALTER TABLE statement in a table mutation can be *)
Inductive table_act (d : dialect) (s t : table) (a : action) : Prop :=
| ta_soft u v : common_col s t u v -> is_column_migrated d u v = true -> soft_drop_column d u = Ok a -> table_act d s t a
| ta_mig u v : common_col s t u v -> is_column_migrated d u v = true -> create_column d v = Ok a -> table_act d s t a
| ta_new v : In v (t_columns t) -> ~ In (c_name v) (map c_name (t_columns s)) -> create_column d v = Ok a -> table_act d s t a
| ta_hard u v : common_col s t u v -> is_column_migrated d u v = true -> a = hard_drop_column u -> table_act d s t a
| ta_alter u v l : common_col s t u v -> mutate_column d u v = Ok l -> In a l -> table_act d s t a
| ta_drop u : In u (t_columns s) -> ~ In (c_name u) (map c_name (t_columns t)) -> a = drop_column d u -> table_act d s t a
| ta_cons : (exists k, a = ADropConstraint k) \/ (exists k, a = AAddConstraint k) \/ (exists x y z, a = AAddDefault x y z) -> table_act d s t a.
Lemma mutate_table_acts d s t l acts q a : mutate_table d s t = Ok l -> In (SAlterTable q acts) l -> In a acts -> table_act d s t a /\ q = t_name s.
Proof.
  intros H I Ia. unfold mutate_table in H. destruct (mutate_table_base d s t) as [b|] eqn:B; simpl in H; [|discriminate]. injection H as <-.
  assert (Base : In (SAlterTable q acts) b -> table_act d s t a /\ q = t_name s).
  { clear I. intros I. unfold mutate_table_base, check_identity in B. destruct (qid_eqb (t_name s) (t_name t)) eqn:En; cbn [bind] in B; [|discriminate].
    set (mig := List.filter (fun p => is_column_migrated d (fst p) (snd p)) (od_intersection c_name (t_columns s) (t_columns t))) in *.
    assert (Hm : forall p, In p mig -> common_col s t (fst p) (snd p) /\ is_column_migrated d (fst p) (snd p) = true).
    { intros p Ip. apply filter_In in Ip as [Ip M]. split; [now apply inter_common|exact M]. }
    match type of B with bind ?z _ = _ => destruct z as [soft|] eqn:B1; cbn [bind] in B; [|discriminate] end. apply table_error_ok in B1.
    match type of B with bind ?z _ = _ => destruct z as [mc|] eqn:B2; cbn [bind] in B; [|discriminate] end. apply table_error_ok in B2.
    match type of B with bind ?z _ = _ => destruct z as [nc|] eqn:B3; cbn [bind] in B; [|discriminate] end. apply table_error_ok in B3.
    match type of B with bind ?z _ = _ => destruct z as [mv|] eqn:B4; cbn [bind] in B; [|discriminate] end. apply table_error_ok in B4.
    match type of B with bind ?z _ = _ => destruct z as [al|] eqn:B5; cbn [bind] in B; [|discriminate] end. apply table_error_ok in B5.
    match type of B with (if ?z then _ else _) = _ => destruct z; [discriminate|] end. injection B as <-.
    rewrite !in_app_iff in I. destruct I as [I|[I|[I|I]]].
    - destruct (concat_res_in _ _ _ _ B1 I) as (p & r & Ip & Hr & Ir). destruct (soft_drop_column d (fst p)) as [x|] eqn:Ea; simpl in Hr; [|discriminate]. injection Hr as <-.
      apply alter_table_in in Ir as (acts' & [= -> ->] & Ii). split; [|reflexivity]. apply Ii in Ia as [<-|[]]. destruct (Hm p Ip). eapply ta_soft; eauto.
    - destruct (mc ++ nc) as [|x0 xs] eqn:E; [destruct I|]. apply alter_table_in in I as (acts' & [= -> ->] & Ii). split; [|reflexivity]. apply Ii in Ia. rewrite <- E in Ia.
      apply in_app_or in Ia as [Ix|Ix].
      + destruct (map_res_inv _ _ _ _ B2 Ix) as (p & Ip & Hp). destruct (Hm p Ip). eapply ta_mig; eauto.
      + destruct (map_res_inv _ _ _ _ B3 Ix) as (c & Ic & Hc). apply difference_in in Ic as [Ic Nc]. eapply ta_new; eauto.
    - exfalso. destruct (concat_res_in _ _ _ _ B4 I) as (p & r & Ip & Hr & Ir). unfold migrate_column in Hr.
      destruct d; try (injection Hr as <-; destruct Ir); destruct (get_constraint t (c_name (snd p))) as [rf|] eqn:Er; simpl in Hr; try discriminate; injection Hr as <-.
      + destruct Ir as [Ir|[]]. discriminate.
      + apply in_app_or in Ir as [Ir|[Ir|[]]]; [|discriminate]. destruct (base_type (c_type (fst p))); try (destruct Ir; fail); destruct Ir as [Ir|[]]; discriminate.
    - match type of I with In _ (match ?z with _ => _ end) => destruct z as [|x0 xs] eqn:E end; [destruct I|]. apply alter_table_in in I as (acts' & [= -> ->] & Ii). split; [|reflexivity].
      apply Ii in Ia. rewrite <- E in Ia. rewrite !in_app_iff in Ia. destruct Ia as [Ix|[Ix|[Ix|[Ix|Ix]]]].
      + apply in_map_iff in Ix as (p & <- & Ip). destruct (Hm p Ip). eapply ta_hard; eauto.
      + destruct (concat_res_in _ _ _ _ B5 Ix) as (p & r & Ip & Hr & Ir). eapply ta_alter; [apply (inter_common s t p Ip)|exact Hr|exact Ir].
      + apply in_map_iff in Ix as (c & <- & Ic). apply difference_in in Ic as [Ic Nc]. eapply ta_drop; eauto.
      + apply in_map_iff in Ix as (k & <- & _). apply ta_cons. eauto.
      + apply in_map_iff in Ix as (k & <- & _). apply ta_cons. eauto. }
  destruct d; auto.
  - apply in_app_or in I as [I|I]; [auto|]. exfalso. apply in_app_or in I as [I|I].
    + unfold pg_column_comments in I. apply in_flat_map in I as (c & _ & I). destruct (comment_change _ _) as [x|]; [|destruct I]. destruct I as [I|[]]. discriminate.
    + destruct (comment_change _ _) as [x|]; [|destruct I]. destruct I as [I|[]]. discriminate.
  - apply in_app_or in I as [I|I]; [auto|]. exfalso. unfold my_table_comment in I. destruct (short_desc (t_desc s)), (short_desc (t_desc t)); try (destruct I as [I|[]]; discriminate); try (destruct I; fail).
    destruct (String.eqb _ _); [destruct I|]. destruct I as [I|[]]. discriminate.
  - apply in_app_or in I as [I|I]; [|auto].
    assert (Hd : forall x, In x (ms_defaults s t) -> table_act DMSSQL s t x).
    { intros x Ix. unfold ms_defaults in Ix. apply in_flat_map in Ix as (p & _ & Ix). destruct (os_eqb _ _); [destruct Ix|]. apply ta_cons. apply in_app_or in Ix as [Ix|Ix].
      - destruct (c_default (fst p)); [destruct Ix as [<-|[]]; eauto|destruct Ix].
      - destruct (c_default (snd p)); [destruct Ix as [<-|[]]; eauto 10|destruct Ix]. }
    destruct (ms_defaults s t) as [|x0 xs] eqn:E; [destruct I|]. apply alter_table_in in I as (acts' & [= -> ->] & Ii). split; [|reflexivity]. apply Hd. now apply Ii.
Qed.

(** actions of [mutate_column] on a column *)
Lemma mutate_column_acts d u v l a c ty idn : mutate_column d u v = Ok l -> In a l -> c_name u = c_name v ->
  (c_name u = c -> c_type v = ty /\ c_identity v = idn) -> calm c ty idn a.
Proof.
  intros H I En K. destruct d; simpl in H.
  1,2,6,7: unfold mutate_column_base in H; destruct (col_eqb u v); [injection H as <-; destruct I|];
    match type of H with bind ?z _ = _ => destruct z; simpl in H; [|discriminate] end; injection H as <-;
    rewrite !in_app_iff in I;
    repeat match type of I with
    | _ \/ _ => destruct I as [I|I]
    | In _ (if ?c then _ else _) => destruct c
    | In _ (match ?c with _ => _ end) => destruct c
    | In _ [_] => destruct I as [<-|[]]
    | In _ [] => destruct I
    end; simpl; try exact Logic.I; intros Q; now apply K.
  - unfold mutate_column_mysql in H. match type of H with bind ?z _ = _ => destruct z as [[]|]; simpl in H; [| |discriminate] end; [|injection H as <-; destruct I].
    destruct (column_def DMySQL v) as [cd|] eqn:E; simpl in H; [|discriminate]. injection H as <-. destruct I as [<-|[]]. simpl. apply column_def_fields in E as (E1 & E2 & E3). rewrite E2, E3 by reflexivity. exact K.
  - unfold mutate_column_mssql in H. destruct (negb _); [discriminate|]. destruct (_ || _)%bool; [|injection H as <-; destruct I].
    destruct (type_str (c_type v)); simpl in H; [|discriminate]. injection H as <-. destruct I as [<-|[]]. simpl. intros Q. now apply K.
  - unfold mutate_column_oracle in H. match type of H with bind ?z _ = _ => destruct z as [ts|] eqn:Z; simpl in H; [|discriminate] end.
    match type of H with match ?z with _ => _ end = _ => destruct z as [|x0 xs] eqn:E end; injection H as <-; [destruct I|]. destruct I as [<-|[]]. cbn [calm]. rewrite <- E. clear E x0 xs. intros Q t It.
    rewrite !in_app_iff in It. destruct It as [It|It].
    + destruct (type_eqb (c_type u) (c_type v)); [injection Z as <-; destruct It|]. destruct (type_str (c_type v)); simpl in Z; [|discriminate]. injection Z as <-. destruct It as [[= <-]|[]]. now apply K.
    + exfalso. repeat match type of It with
      | _ \/ _ => destruct It as [It|It]
      | In _ (if ?c then _ else _) => destruct c
      | In _ [_] => destruct It as [It|[]]; discriminate
      | In _ [] => destruct It
      end.
Qed.

(** columns of both tables with the same type, whose name is not that of a soft-deleted column *)
Definition retained (x y : table) (c : string) (ty : sqltype) (idn : bool) : Prop :=
  exists u v, In u (t_columns x) /\ In v (t_columns y) /\ c_name u = c /\ c_name v = c /\ c_type u = ty /\ c_type v = ty /\ c_identity v = idn
  /\ forall w, In w (t_columns x) -> c <> deleted (c_name w).
Section Table.
  Context (d : dialect) (x y : table) (Nx : List.NoDup (map c_name (t_columns x))) (Ny : List.NoDup (map c_name (t_columns y))).
  Lemma not_migrated u v c ty idn : retained x y c ty idn -> common_col x y u v -> is_column_migrated d u v = true -> c_name u <> c.
  Proof.
    intros (a & b & Ia & Ib & Na & Nb & Ta & Tb & _ & _) (Iu & Iv & En) M Z. apply is_migrated_spec in M.
    assert (u = a) by (apply (nodup_inj c_name (t_columns x)); auto; congruence). assert (v = b) by (apply (nodup_inj c_name (t_columns y)); auto; congruence). congruence.
  Qed.
  Lemma table_act_calm a c ty idn : table_act d x y a -> retained x y c ty idn -> calm c ty idn a.
  Proof.
    intros H R. assert (R' := R). destruct R' as (p & q & Ip & Iq & Np & Nq & Tp & Tq & Iq' & Nd).
    destruct H as [u v C M H|u v C M H|v Iv Nv H|u v C M ->|u v l C H I|u Iu Nu ->|[(k & ->)|[(k & ->)|(k1 & k2 & k3 & ->)]]]; try exact Logic.I.
    - assert (Z := not_migrated u v c ty idn R C M). assert (Z' := Nd u (proj1 C)). unfold soft_drop_column in H. destruct d; try (injection H as <-; simpl; auto).
      destruct (column_def DMySQL u); simpl in H; [|discriminate]. injection H as <-. simpl. auto.
    - apply create_column_name in H as (cd & -> & E). simpl. rewrite E. assert (Z := not_migrated u v c ty idn R C M). destruct C as (_ & _ & C). congruence.
    - apply create_column_name in H as (cd & -> & E). simpl. rewrite E. intros Q. apply Nv. rewrite Q, <- Np. now apply in_map.
    - simpl. intros Q. exact (Nd u (proj1 C) (eq_sym Q)).
    - eapply mutate_column_acts; eauto; [apply C|]. intros Q. destruct C as (Cu & Cv & En). assert (v = q) by (apply (nodup_inj c_name (t_columns y)); auto; congruence). subst v. auto.
    - unfold drop_column. assert (Z : c_name u <> c) by (intros Q; apply Nu; rewrite Q, <- Nq; now apply in_map). destruct d; try exact Z. destruct (c_default u); exact Z.
  Qed.
End Table.
