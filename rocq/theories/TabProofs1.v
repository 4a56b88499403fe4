(** Effect of column definitions and column alterations on the abstract database. *)
From Verif Require Import PyStr QuoteModel ObjectDict ObjectDictSpec ObjectDictProofs Types Objects SqlAst Ddl Mutate DbSpec CatSpec DbLemmas.
From stdpp Require Import gmap strings.
Open Scope list_scope.

Lemma exec_actions_run E l t : exec_actions E l t = run (exec_action E) l t.
Proof. revert t. induction l as [|a l IH]; intros t; simpl; [reflexivity|]. destruct (exec_action E a t); simpl; auto. Qed.
Lemma exec_all_run E l t : exec_all E l t = run (exec E) l t.
Proof. revert t. induction l as [|a l IH]; intros t; simpl; [reflexivity|]. destruct (exec E a t); simpl; auto. Qed.

(** one-column view *)
Definition put (n : string) (c : dbcol) (t : dbtab) : dbtab := set_cols t (<[n := c]> (dt_cols t)).
Lemma put_id n c t : dt_cols t !! n = Some c -> put n c t = t.
Proof. intros H. unfold put, set_cols. rewrite insert_id by exact H. now destruct t. Qed.
Lemma put_put n c c' t : put n c' (put n c t) = put n c' t.
Proof. unfold put, set_cols. simpl. now rewrite insert_insert. Qed.
Lemma upd_put n f c t : upd_col n f (put n c t) = (c' ← f c; Some (put n c' t)).
Proof.
  unfold upd_col. unfold put at 1. simpl. rewrite lookup_insert. simpl.
  destruct (f c) as [c'|]; simpl; [|reflexivity]. now rewrite <- (put_put n c c' t).
Qed.
Lemma put_pk n c t : dt_pk (put n c t) = dt_pk t. Proof. reflexivity. Qed.


Definition inline_comment (d : dialect) (desc : option string) : option string :=
  match d with DPg => None | _ => want_comment d desc end.
(** the column as created by ADD COLUMN / CREATE TABLE alone *)
Definition created (d : dialect) (c : column) : dbcol := with_comment (inline_comment d (c_desc c)) (want_col d c).

Lemma mysql_comment_ok desc cm : mysql_comment desc = Ok cm -> cm = match desc with Some s => Some (first_line s) | None => None end.
Proof. destruct desc; simpl; [destruct (Nat.ltb 1024 _); [discriminate|]|]; congruence. Qed.

Lemma column_def_name d c cd : column_def d c = Ok cd -> cd_name cd = c_name c.
Proof.
  unfold column_def. destruct (type_str _); simpl; [|discriminate].
  destruct d; simpl; try (intros [= <-]; reflexivity).
  destruct (mysql_comment _); simpl; [|discriminate]. intros [= <-]. reflexivity.
Qed.

Lemma str_in_pk n pk : str_in n pk = true <-> In n pk. Proof. apply str_in_spec. Qed.

Lemma mean_created d pk c cd :
  column_def d c = Ok cd -> col_wf c -> (In (c_name c) pk -> c_nullable c = false) ->
  mean_coldef pk cd = created d c.
Proof.
  intros H W P.
  assert (Hnull : negb (negb (c_nullable c) && negb (c_identity c)) && negb (c_identity c)
                  && negb (str_in (c_name c) pk) = c_nullable c
               /\ negb (negb (c_nullable c)) && negb (c_identity c)
                  && negb (str_in (c_name c) pk) = c_nullable c).
  { destruct (c_nullable c) eqn:En; [|now destruct (c_identity c)].
    destruct (c_identity c) eqn:Ei; [destruct (W Ei); congruence|].
    destruct (str_in (c_name c) pk) eqn:Ep; [|auto]. apply str_in_spec in Ep. specialize (P Ep). congruence. }
  destruct Hnull as [H1 H2].
  unfold column_def in H. destruct (type_str _); simpl in H; [|discriminate].
  destruct d; simpl in H.
  all: try (injection H as <-; unfold mean_coldef, created, want_col, with_comment; cbn [cd_type cd_notnull cd_identity cd_name cd_default cd_comment dc_type dc_null dc_default dc_ident dc_comment];
            rewrite ?H1, ?H2; unfold want_default; destruct (c_default c); reflexivity).
  destruct (mysql_comment (c_desc c)) as [cm|] eqn:Em; simpl in H; [|discriminate].
  apply mysql_comment_ok in Em. injection H as <-.
  unfold mean_coldef, created, want_col, with_comment; cbn [cd_type cd_notnull cd_identity cd_name cd_default cd_comment dc_type dc_null dc_default dc_ident dc_comment].
  rewrite H2. unfold want_default; destruct (c_default c); subst cm; reflexivity.
Qed.

(** *** Column alteration *)

Definition eqb_spec_type a b : reflect (a = b) (type_eqb a b).
Proof. apply iff_reflect. symmetry. apply type_eqb_eq. Qed.
Definition eqb_spec_os a b : reflect (a = b) (os_eqb a b).
Proof. apply iff_reflect. symmetry. apply os_eqb_eq. Qed.

Lemma col_eqb_eq a b : col_eqb a b = true <-> a = b.
Proof.
  destruct a, b. unfold col_eqb; simpl.
  rewrite !andb_true_iff, String.eqb_eq, type_eqb_eq, !eqb_true_iff, !os_eqb_eq.
  split; [intuition congruence|]. intros [= -> -> -> -> -> ->]. auto 10.
Qed.

Lemma set_null_ok pk n b c : (b = true -> dc_ident c = false /\ ~ In n pk) -> set_null pk n b c = Some (with_null b c).
Proof.
  intros H. unfold set_null. destruct b; [|reflexivity]. destruct (H eq_refl) as [-> N].
  destruct (str_in n pk) eqn:E; [apply str_in_spec in E; contradiction|reflexivity].
Qed.

(** after the default part for base/Oracle/MySQL; SQL Server leaves the default alone *)
Definition new_default (d : dialect) (c : dbcol) (t : column) :=
  match d with DMSSQL => dc_default c | _ => want_default d t end.
Definition new_comment (d : dialect) (c : dbcol) (t : column) :=
  match d with DMySQL => want_comment d (c_desc t) | _ => dc_comment c end.

Record col_pre (d : dialect) (s t : column) (c : dbcol) : Prop := {
  cp_type : c_type s = c_type t -> dc_type c = c_type t;
  cp_null : c_nullable s = c_nullable t -> dc_null c = c_nullable t;
  cp_default : d <> DMSSQL -> c_default s = c_default t -> dc_default c = want_default d t;
  cp_ident : dc_ident c = c_identity s;
  cp_comment : d = DMySQL -> c_type s = c_type t -> want_comment d (c_desc s) = want_comment d (c_desc t) ->
               dc_comment c = want_comment d (c_desc t) }.

Definition basic (d : dialect) : Prop := d = DBase \/ d = DPg \/ general d.
Lemma base_default d s t : basic d -> (general d -> default_as_is d s t) -> c_default s = c_default t \/ forall e, c_default t = Some e -> want_default d t = Some (None, e).
Proof. intros [-> | [-> | G]] H; [right|right|exact (H G)]; intros e E; unfold want_default; rewrite E; reflexivity. Qed.
Lemma basic_not_mssql d : basic d -> d <> DMSSQL.
Proof. intros [-> | [-> | [-> | ->]]]; discriminate. Qed.

Lemma run_put E n acts c c' tb :
  (exec_actions E acts (put n c tb) = Some (put n c' tb)) ->
  dt_cols tb !! n = Some c -> exec_actions E acts tb = Some (put n c' tb).
Proof. intros H Hc. now rewrite (put_id n c tb Hc) in H. Qed.

Lemma exec_actions_app E l1 l2 t : exec_actions E (l1 ++ l2) t = (t' ← exec_actions E l1 t; exec_actions E l2 t').
Proof. rewrite exec_actions_run, run_app, <- exec_actions_run. destruct (exec_actions E l1 t); simpl; [|reflexivity]. now rewrite exec_actions_run. Qed.

Lemma mutate_base_exec E d s t acts tb c :
  basic d -> (general d -> default_as_is d s t) ->
  mutate_column_base s t = Ok acts -> c_name s = c_name t -> col_wf s -> col_wf t -> ident_compat s t ->
  (In (c_name t) (dt_pk tb) -> c_nullable t = false) ->
  col_pre d s t c ->
  exec_actions E acts (put (c_name t) c tb)
  = Some (put (c_name t) (DbCol (c_type t) (c_nullable t) (want_default d t) (c_identity t) (dc_comment c)) tb).
Proof.
  intros Hd Hg H En Ws Wt Ic Pk Cp. pose proof (basic_not_mssql d Hd) as Nd. unfold mutate_column_base in H.
  destruct (col_eqb s t) eqn:Ee.
  { apply col_eqb_eq in Ee. injection H as <-. simpl. subst s. f_equal. f_equal.
    destruct Cp as [T N D I _]. destruct c as [ty nu df id cm]; simpl in *.
    rewrite T, N, D, I; auto. }
  match type of H with bind ?x _ = _ => destruct x; simpl in H; [|discriminate] end.
  injection H as <-. rewrite En.
  destruct Cp as [T N D I _]. destruct c as [ty nu df id cm]; simpl in T, N, D, I |- *. subst id.
  rewrite exec_actions_app.
  (* type *)
  assert (S1 : exec_actions E (if type_eqb (c_type s) (c_type t) then [] else [ASetType (c_name t) (c_type t)])
                 (put (c_name t) (DbCol ty nu df (c_identity s) cm) tb)
               = Some (put (c_name t) (DbCol (c_type t) nu df (c_identity s) cm) tb)).
  { destruct (eqb_spec_type (c_type s) (c_type t)) as [Et|Et]; simpl.
    - now rewrite (T Et).
    - rewrite upd_put. reflexivity. }
  rewrite S1. cbn [mbind option_bind]. clear S1. rewrite exec_actions_app.
  (* nullability *)
  assert (S2 : exec_actions E (if c_nullable s && negb (c_nullable t) then [ASetNotNull (c_name t)]
                else if negb (c_nullable s) && c_nullable t then [ADropNotNull (c_name t)] else [])
                 (put (c_name t) (DbCol (c_type t) nu df (c_identity s) cm) tb)
               = Some (put (c_name t) (DbCol (c_type t) (c_nullable t) df (c_identity s) cm) tb)).
  { destruct (c_nullable s) eqn:Es, (c_nullable t) eqn:Et; simpl.
    - now rewrite (N eq_refl).
    - rewrite upd_put. reflexivity.
    - rewrite upd_put, set_null_ok; [reflexivity|]. intros _. simpl. split.
      + destruct (c_identity s) eqn:Ei; [|reflexivity].
        destruct (c_identity t) eqn:Ej; [destruct (Wt Ej); congruence|].
        specialize (Ic Ei Ej). congruence.
      + intros Hin. specialize (Pk Hin). congruence.
    - now rewrite (N eq_refl). }
  rewrite S2. cbn [mbind option_bind]. clear S2. rewrite exec_actions_app.
  (* default *)
  match goal with |- context [exec_actions E ?l (put _ (DbCol _ _ df _ _) tb)] =>
    assert (S3 : exec_actions E l (put (c_name t) (DbCol (c_type t) (c_nullable t) df (c_identity s) cm) tb)
               = Some (put (c_name t) (DbCol (c_type t) (c_nullable t) (want_default d t) (c_identity s) cm) tb)) end.
  { destruct (c_default t) as [e|] eqn:Et.
    - assert (Hx : exec_actions E (if os_eqb (c_default s) (Some e) then [] else [ASetDefault (c_name t) e])
                 (put (c_name t) (DbCol (c_type t) (c_nullable t) df (c_identity s) cm) tb)
               = Some (put (c_name t) (DbCol (c_type t) (c_nullable t) (want_default d t) (c_identity s) cm) tb)).
      { destruct (eqb_spec_os (c_default s) (Some e)) as [Eq|Eq]; simpl.
        - rewrite D; [reflexivity|exact Nd|congruence].
        - rewrite upd_put. simpl. destruct (base_default d s t Hd Hg) as [Z|Hw]; [congruence|]. now rewrite (Hw e Et). }
      destruct (c_default s); exact Hx.
    - assert (Hw : want_default d t = None) by (unfold want_default; rewrite Et; now destruct d).
      destruct (c_default s) eqn:Es; simpl.
      + rewrite upd_put. simpl. now rewrite Hw.
      + rewrite D; [reflexivity|exact Nd|congruence]. }
  rewrite S3. simpl. clear S3.
  (* identity *)
  destruct (c_identity s) eqn:Es, (c_identity t) eqn:Et; simpl; rewrite ?upd_put; try reflexivity.
  destruct (Wt Et) as [W1 W2]. unfold set_ident. simpl. rewrite W1.
  assert (Hw : want_default d t = None) by (unfold want_default; rewrite W2; now destruct d).
  rewrite Hw. reflexivity.
Qed.

Lemma mutate_oracle_exec E s t acts tb c :
  mutate_column_oracle s t = Ok acts -> c_name s = c_name t -> col_wf s -> col_wf t -> ident_compat s t ->
  (In (c_name t) (dt_pk tb) -> c_nullable t = false) ->
  col_pre DOracle s t c ->
  exec_actions E acts (put (c_name t) c tb)
  = Some (put (c_name t) (DbCol (c_type t) (c_nullable t) (want_default DOracle t) (c_identity t) (dc_comment c)) tb).
Proof.
  intros H En Ws Wt Ic Pk Cp. unfold mutate_column_oracle in H.
  match type of H with bind ?x _ = _ => destruct x as [tys|] eqn:Hty; simpl in H; [|discriminate] end.
  set (cs := (tys ++ _)%list) in H.
  assert (G : exec_oras (dt_pk tb) (c_name t) cs c
              = Some (DbCol (c_type t) (c_nullable t) (want_default DOracle t) (c_identity t) (dc_comment c))).
  { subst cs. destruct Cp as [T N D I _]. destruct c as [ty nu df id cm]; simpl in T, N, D, I |- *. subst id.
    assert (Happ : forall l1 l2 c, exec_oras (dt_pk tb) (c_name t) (l1 ++ l2) c
              = (c' ← exec_oras (dt_pk tb) (c_name t) l1 c; exec_oras (dt_pk tb) (c_name t) l2 c')).
    { induction l1 as [|x l1 IH]; intros l2 c; simpl; [reflexivity|].
      destruct (exec_ora _ _ x c); simpl; [apply IH|reflexivity]. }
    rewrite Happ.
    assert (S1 : exec_oras (dt_pk tb) (c_name t) tys (DbCol ty nu df (c_identity s) cm)
                 = Some (DbCol (c_type t) nu df (c_identity s) cm)).
    { destruct (eqb_spec_type (c_type s) (c_type t)) as [Et|Et].
      - injection Hty as <-. simpl. now rewrite (T Et).
      - destruct (type_str (c_type t)); simpl in Hty; [|discriminate]. injection Hty as <-. reflexivity. }
    rewrite S1. cbn [mbind option_bind]. rewrite Happ.
    match goal with |- context [exec_oras _ _ ?l (DbCol _ _ df _ _)] =>
      assert (S3 : exec_oras (dt_pk tb) (c_name t) l (DbCol (c_type t) nu df (c_identity s) cm)
                   = Some (DbCol (c_type t) nu (want_default DOracle t) (c_identity s) cm)) end.
    { destruct (eqb_spec_os (c_default s) (c_default t)) as [Eq|Eq]; simpl.
      - rewrite D; [reflexivity|discriminate|exact Eq].
      - unfold want_default. destruct (c_default t); reflexivity. }
    rewrite S3. cbn [mbind option_bind]. rewrite Happ.
    assert (S2 : exec_oras (dt_pk tb) (c_name t)
        (if Bool.eqb (c_nullable s) (c_nullable t) then [] else [OSetNull (c_nullable t)])
       (DbCol (c_type t) nu (want_default DOracle t) (c_identity s) cm)
       = Some (DbCol (c_type t) (c_nullable t) (want_default DOracle t) (c_identity s) cm)).
    { destruct (Bool.eqb (c_nullable s) (c_nullable t)) eqn:Eb; simpl.
      - apply eqb_prop in Eb. now rewrite (N Eb).
      - rewrite set_null_ok; [reflexivity|]. intros Ht. simpl. split.
        + destruct (c_identity s) eqn:Ei; [|reflexivity].
          destruct (c_identity t) eqn:Ej; [destruct (Wt Ej); congruence|].
          specialize (Ic Ei Ej). congruence.
        + intros Hin. specialize (Pk Hin). congruence. }
    rewrite S2. simpl.
    destruct (c_identity s) eqn:Es, (c_identity t) eqn:Et; simpl; try reflexivity.
    destruct (Wt Et) as [W1 W2]. rewrite W1.
    assert (Hw : want_default DOracle t = None) by (unfold want_default; now rewrite W2).
    unfold want_default in Hw |- *. rewrite W2. reflexivity. }
  destruct cs as [|x cs'] eqn:Ecs.
  - injection H as <-. simpl. simpl in G. injection G as <-. reflexivity.
  - injection H as <-. rewrite En. cbn [exec_actions]. unfold exec_action.
    rewrite upd_put. rewrite put_pk, G. reflexivity.
Qed.

Lemma mutate_mssql_exec E s t acts tb c :
  mutate_column_mssql s t = Ok acts -> c_name s = c_name t -> col_wf t ->
  (In (c_name t) (dt_pk tb) -> c_nullable t = false) ->
  col_pre DMSSQL s t c ->
  exec_actions E acts (put (c_name t) c tb)
  = Some (put (c_name t) (DbCol (c_type t) (c_nullable t) (dc_default c) (c_identity t) (dc_comment c)) tb).
Proof.
  intros H En Wt Pk Cp. unfold mutate_column_mssql in H.
  destruct (Bool.eqb (c_identity s) (c_identity t)) eqn:Ei; simpl in H; [|discriminate].
  apply eqb_prop in Ei.
  destruct Cp as [T N D I _]. destruct c as [ty nu df id cm]; simpl in T, N, D, I |- *. subst id. rewrite Ei.
  destruct (eqb_spec_type (c_type s) (c_type t)) as [Et|Et]; simpl in H.
  - destruct (Bool.eqb (c_nullable s) (c_nullable t)) eqn:Eb; simpl in H.
    + injection H as <-. apply eqb_prop in Eb. simpl. now rewrite (T Et), (N Eb).
    + destruct (type_str (c_type t)); simpl in H; [|discriminate]. injection H as <-. rewrite En.
      cbn [exec_actions]. unfold exec_action. rewrite upd_put, negb_involutive, set_null_ok; [reflexivity|].
      intros Hn. simpl. split.
      * destruct (c_identity t) eqn:Ej; [destruct (Wt Ej); congruence|reflexivity].
      * intros Hin. specialize (Pk Hin). congruence.
  - destruct (type_str (c_type t)); simpl in H; [|discriminate]. injection H as <-. rewrite En.
    cbn [exec_actions]. unfold exec_action. rewrite upd_put, negb_involutive, set_null_ok; [reflexivity|].
    intros Hn. simpl. split.
    * destruct (c_identity t) eqn:Ej; [destruct (Wt Ej); congruence|reflexivity].
    * intros Hin. specialize (Pk Hin). congruence.
Qed.

Lemma mutate_mysql_exec E s t acts tb c :
  mutate_column_mysql s t = Ok acts -> c_name s = c_name t -> col_wf t ->
  (In (c_name t) (dt_pk tb) -> c_nullable t = false) ->
  col_pre DMySQL s t c ->
  exec_actions E acts (put (c_name t) c tb) = Some (put (c_name t) (want_col DMySQL t) tb).
Proof.
  intros H En Wt Pk Cp. unfold mutate_column_mysql in H.
  match type of H with bind ?x _ = _ => destruct x as [ch|] eqn:Hch; cbn [bind] in H; [|discriminate] end.
  destruct ch.
  - destruct (column_def DMySQL t) as [cd|] eqn:Hcd; cbn [bind] in H; [|discriminate].
    injection H as <-. cbn [exec_actions]. unfold exec_action. cbn [cd_name]. rewrite En, upd_put. cbn.
    f_equal. f_equal.
    assert (M := mean_created DMySQL (dt_pk tb) t cd Hcd Wt Pk).
    assert (Hn := column_def_name _ _ _ Hcd).
    unfold mean_coldef in M |- *. cbn [cd_type cd_notnull cd_identity cd_name cd_default cd_comment].
    rewrite Hn in M. rewrite <- ?En in *. rewrite M. reflexivity.
  - destruct (eqb_spec_type (c_type s) (c_type t)) as [Et|Et]; simpl in Hch; [|discriminate].
    destruct (Bool.eqb (c_nullable s) (c_nullable t)) eqn:Eb; simpl in Hch; [|discriminate].
    destruct (eqb_spec_os (c_default s) (c_default t)) as [Ed|Ed]; simpl in Hch; [|discriminate].
    destruct (Bool.eqb (c_identity s) (c_identity t)) eqn:Ei; simpl in Hch; [|discriminate].
    apply eqb_prop in Eb, Ei.
    destruct (mysql_comment (c_desc s)) as [a|] eqn:Ea; simpl in Hch; [|discriminate].
    destruct (mysql_comment (c_desc t)) as [b|] eqn:Eb'; simpl in Hch; [|discriminate].
    injection Hch as Hch. apply negb_false_iff in Hch. apply os_eqb_eq in Hch. subst b.
    apply mysql_comment_ok in Ea, Eb'. injection H as <-. simpl. f_equal. f_equal.
    destruct Cp as [T N D I C]. destruct c as [ty nu df id cm]; simpl in *. unfold want_col.
    rewrite (T Et), (N Eb), I, Ei, D, C; auto; try discriminate.
    unfold want_comment. now rewrite <- Ea, <- Eb'.
Qed.

(** the combined statement *)
Lemma mutate_column_exec E d s t acts tb c :
  (general d -> default_as_is d s t) -> mutate_column d s t = Ok acts -> c_name s = c_name t -> col_wf s -> col_wf t -> ident_compat s t ->
  (In (c_name t) (dt_pk tb) -> c_nullable t = false) ->
  col_pre d s t c -> dt_cols tb !! c_name t = Some c ->
  exec_actions E acts tb
  = Some (put (c_name t) (DbCol (c_type t) (c_nullable t) (new_default d c t) (c_identity t) (new_comment d c t)) tb).
Proof.
  intros F H En Ws Wt Ic Pk Cp Hc. eapply run_put; [|exact Hc].
  destruct d; simpl in H |- *.
  - eapply (mutate_base_exec E DBase); eauto. now left.
  - eapply (mutate_base_exec E DPg); eauto. right. now left.
  - eapply mutate_mysql_exec; eauto.
  - eapply mutate_mssql_exec; eauto.
  - eapply mutate_oracle_exec; eauto.
  - eapply (mutate_base_exec E DDelta); eauto. right. right. now left.
  - eapply (mutate_base_exec E DSnow); eauto. right. right. now right.
Qed.
