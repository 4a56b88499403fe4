(** The statements generated for a pair of tables turn the source table into the target table (main lemma). *)
From Verif Require Import PyStr QuoteModel ObjectDict ObjectDictSpec ObjectDictProofs Types Objects SqlAst Ddl Mutate DbSpec CatSpec DbLemmas TabProofs1 TabProofs2 TabProofs3.
From stdpp Require Import gmap strings.
Open Scope list_scope.

(** *** shape of the generated statements *)
Section Shape.
  Variables (d : dialect) (s t : table).
  Definition common := od_intersection c_name (t_columns s) (t_columns t).
  Definition migrated := List.filter (fun p => is_column_migrated d (fst p) (snd p)) common.
  Definition new_cols := od_difference c_name (t_columns t) (t_columns s).
  Definition old_cols := od_difference c_name (t_columns s) (t_columns t).
  Definition alter_prog (p : column * column) : list tact := map TA (ok_or [] (mutate_column d (fst p) (snd p))).
  Definition hard_prog (p : column * column) : list tact := [TA (hard_drop_column (fst p))].
  Definition drop_prog (c : column) : list tact := [TA (drop_column d c)].
  Definition dropk_prog (k : constr) : list tact := [TA (ADropConstraint (k_name k))].
  Definition addk_prog (k : constr) : list tact := [TA (AAddConstraint k)].
  Definition old_cons := List.filter is_alter (od_difference k_name (t_constraints s) (t_constraints t)).
  Definition new_cons := List.filter is_alter (od_difference k_name (t_constraints t) (t_constraints s)).
  Definition comment_prog (tc : column) : list tact :=
    match comment_change (match od_get c_name (c_name tc) (t_columns s) with Some sc => c_desc sc | None => None end) (c_desc tc) with
    | Some c => [TCol (c_name tc) c] | None => [] end.
  Definition pre_acts : list tact := match d with DMSSQL => concat (map ms_prog common) | _ => [] end.
  Definition post_acts : list tact :=
    match d with
    | DPg => concat (map comment_prog (t_columns t))
             ++ match comment_change (t_desc s) (t_desc t) with Some c => [TTab c] | None => [] end
    | DMySQL => flat_map flat (my_table_comment s t)
    | _ => []
    end.
  Definition main_acts : list tact :=
    concat (map (soft_prog d) migrated) ++ concat (map (add_prog d snd) migrated) ++ concat (map (add_prog d (fun c => c)) new_cols)
    ++ concat (map hard_prog migrated) ++ concat (map alter_prog common) ++ concat (map drop_prog old_cols)
    ++ concat (map dropk_prog old_cons) ++ concat (map addk_prog new_cons).

  Lemma flat_map_concat_map {A B} (f : A -> list B) l : flat_map f l = concat (map f l).
  Proof. induction l as [|x l IH]; simpl; congruence. Qed.
  Lemma map_concat_single {A B} (f : A -> B) l : map f l = concat (map (fun x => [f x]) l).
  Proof. induction l as [|x l IH]; simpl; congruence. Qed.
  Lemma flat_rows l : Forall (fun x => match x with SInsert _ _ _ _ | SInsertDistinct _ _ _ | SUpdateLookup _ _ _ _ => True | _ => False end) l ->
    flat_map flat l = [].
  Proof. induction 1 as [|x l H _ IH]; simpl; [reflexivity|]. destruct x; try contradiction; exact IH. Qed.
  Lemma migrate_rows st a tt b l : migrate_column d st a tt b = Ok l ->
    Forall (fun x => match x with SInsert _ _ _ _ | SInsertDistinct _ _ _ | SUpdateLookup _ _ _ _ => True | _ => False end) l.
  Proof.
    unfold migrate_column. destruct d; try (intros [= <-]; constructor).
    - destruct (get_constraint _ _); simpl; [|discriminate]. intros [= <-]. repeat constructor.
    - destruct (get_constraint _ _); simpl; [|discriminate]. intros [= <-].
      apply Forall_app. split; [|repeat constructor]. destruct (base_type _); repeat constructor.
  Qed.

  Record shape : Prop := {
    sh_name : t_name s = t_name t;
    sh_soft : forall p, In p migrated -> exists a, soft_drop_column d (fst p) = Ok a;
    sh_mcreate : forall p, In p migrated -> exists a, create_column d (snd p) = Ok a;
    sh_create : forall c, In c new_cols -> exists a, create_column d c = Ok a;
    sh_alter : forall p, In p common -> exists l, mutate_column d (fst p) (snd p) = Ok l;
    sh_cons : forall a b, In (a, b) (od_intersection k_name (t_constraints s) (t_constraints t)) -> constr_eqb a b = true }.

  Lemma mutate_table_shape stmts :
    mutate_table d s t = Ok stmts ->
    shape /\ Forall (tab_stmt (key_of (t_name s))) stmts /\ flat_map flat stmts = pre_acts ++ main_acts ++ post_acts.
  Proof.
    unfold mutate_table. destruct (mutate_table_base d s t) as [base|] eqn:B; simpl; [|discriminate]. intros [= <-].
    unfold mutate_table_base, check_identity in B.
    destruct (qid_eqb (t_name s) (t_name t)) eqn:En; simpl in B; [|discriminate]. apply qid_eqb_eq in En.
    fold common in B. fold migrated in B. fold new_cols in B. fold old_cols in B.
    destruct (table_error (concat_res _ migrated)) as [soft|] eqn:E1 in B; simpl in B; [|discriminate]. apply table_error_ok in E1.
    destruct (table_error (map_res _ migrated)) as [mc|] eqn:E2 in B; simpl in B; [|discriminate]. apply table_error_ok in E2.
    destruct (table_error (map_res _ new_cols)) as [nc|] eqn:E3 in B; simpl in B; [|discriminate]. apply table_error_ok in E3.
    destruct (table_error (concat_res _ migrated)) as [mv|] eqn:E4 in B; simpl in B; [|discriminate]. apply table_error_ok in E4.
    destruct (table_error (concat_res _ common)) as [al|] eqn:E5 in B; simpl in B; [|discriminate]. apply table_error_ok in E5.
    destruct (existsb _ _) eqn:Ex in B; [discriminate|]. injection B as <-.
    assert (E4' : forall x, In x mv -> match x with SInsert _ _ _ _ | SInsertDistinct _ _ _ | SUpdateLookup _ _ _ _ => True | _ => False end).
    { intros x Hx. apply (concat_res_in _ _ _ _ E4) in Hx as (p & ys & _ & Hm & Hy).
      apply migrate_rows in Hm. rewrite List.Forall_forall in Hm. apply Hm. exact Hy. }
    assert (E1' := concat_res_ok _ _ _ E1). assert (E2' := map_res_ok _ _ _ E2). assert (E3' := map_res_ok _ _ _ E3).
    assert (E5' := concat_res_ok _ _ _ E5).
    destruct E1' as [S1 ->], E2' as [S2 ->], E3' as [S3 ->], E5' as [S5 ->].
    set (acts := _ ++ _ ++ _ ++ _ ++ _).
    match goal with |- context [match ?x with [] => [] | _ :: _ => alter_table d (t_name s) ?y end] => set (cr := x) in * end.
    split; [|split].
    - constructor; auto.
      + intros p Hp. destruct (S1 p Hp) as [y Hy]. destruct (soft_drop_column d (fst p)); [eauto|discriminate].
      + intros a b Hab. destruct (constr_eqb a b) eqn:Ec; [reflexivity|].
        assert (existsb (fun p => negb (constr_eqb (fst p) (snd p))) (od_intersection k_name (t_constraints s) (t_constraints t)) = true); [|congruence].
        apply existsb_exists. exists (a, b). split; [exact Hab|]. simpl. now rewrite Ec.
    - assert (Fb : forall l, Forall (tab_stmt (key_of (t_name s))) (match l with [] => [] | _ => alter_table d (t_name s) l end)).
      { intros [|a l]; [constructor|apply tab_alter]. }
      assert (Fsoft : Forall (tab_stmt (key_of (t_name s)))
         (concat (map (fun x => ok_or [] (do a <- soft_drop_column d x.1; Ok (alter_table d (t_name s) [a]))) migrated))).
      { apply List.Forall_forall. intros x Hx. apply in_concat in Hx as (l & Hl & Hx). apply in_map_iff in Hl as (p & <- & Hp).
        destruct (soft_drop_column d (fst p)); simpl in Hx; [|contradiction].
        assert (F := tab_alter d (t_name s) [a]). rewrite List.Forall_forall in F. auto. }
      assert (Fmv : Forall (tab_stmt (key_of (t_name s))) mv).
      { apply List.Forall_forall. intros x Hx. apply E4' in Hx. destruct x; try contradiction; exact I. }
      assert (Fmain : forall x1 x2, Forall (tab_stmt (key_of (t_name s)))
         (concat (map (fun x => ok_or [] (do a <- soft_drop_column d x.1; Ok (alter_table d (t_name s) [a]))) migrated)
          ++ match x1 with [] => [] | _ => alter_table d (t_name s) x1 end ++ mv ++ match x2 with [] => [] | _ => alter_table d (t_name s) x2 end)).
      { intros. rewrite !Forall_app. auto. }
      destruct d; try apply Fmain.
      + rewrite Forall_app. split; [apply Fmain|]. rewrite Forall_app. split.
        * unfold pg_column_comments. apply List.Forall_forall. intros x Hx. apply in_flat_map in Hx as (c & _ & Hx).
          destruct (comment_change _ _) in Hx; [|contradiction]. destruct Hx as [<-|[]]. simpl. congruence.
        * destruct (comment_change _ _); repeat constructor. simpl. congruence.
      + rewrite Forall_app. split; [apply Fmain|]. unfold my_table_comment.
        destruct (short_desc (t_desc s)), (short_desc (t_desc t)); try case_match; repeat constructor; simpl; congruence.
      + rewrite Forall_app. split; [|apply Fmain]. specialize (Fb (ms_defaults s t)). now destruct (ms_defaults s t).
    - assert (Fb : forall l, flat_map flat (match l with [] => [] | _ => alter_table d (t_name s) l end) = map TA l).
      { intros [|a l]; [reflexivity|apply flat_alter]. }
      assert (Fmv : flat_map flat mv = []).
      { apply flat_rows. apply List.Forall_forall. exact E4'. }
      assert (Fsoft : flat_map flat (concat (map (fun x => ok_or [] (do a <- soft_drop_column d x.1; Ok (alter_table d (t_name s) [a]))) migrated))
                      = concat (map (soft_prog d) migrated)).
      { clear. induction migrated as [|p l IH]; simpl; [reflexivity|]. rewrite flat_map_app, IH. f_equal.
        unfold soft_prog. destruct (soft_drop_column d (fst p)); simpl; [|reflexivity]. apply flat_alter. }
      assert (Fcr : map TA cr = concat (map (add_prog d snd) migrated) ++ concat (map (add_prog d (fun c => c)) new_cols)).
      { subst cr. rewrite map_app. f_equal.
        - clear. induction migrated as [|p l IH]; simpl; [reflexivity|]. rewrite map_app, IH. f_equal.
          unfold add_prog. now destruct (create_column d (snd p)).
        - clear. induction new_cols as [|p l IH]; simpl; [reflexivity|]. rewrite map_app, IH. f_equal.
          unfold add_prog. now destruct (create_column d p). }
      assert (Facts : map TA acts = concat (map hard_prog migrated) ++ concat (map alter_prog common) ++ concat (map drop_prog old_cols)
                ++ concat (map dropk_prog old_cons) ++ concat (map addk_prog new_cons)).
      { subst acts. rewrite !map_app. fold old_cons. fold new_cons.
        rewrite !map_map.
        f_equal; [apply map_concat_single|]. f_equal; [rewrite concat_map, map_map; reflexivity|].
        f_equal; [apply map_concat_single|]. f_equal; apply map_concat_single. }
      assert (Fmain : flat_map flat (concat (map (fun x => ok_or [] (do a <- soft_drop_column d x.1; Ok (alter_table d (t_name s) [a]))) migrated)
          ++ match cr with [] => [] | _ => alter_table d (t_name s) cr end ++ mv ++ match acts with [] => [] | _ => alter_table d (t_name s) acts end)
          = main_acts).
      { rewrite !flat_map_app, Fsoft, !Fb, Fmv, Fcr, Facts. unfold main_acts. rewrite <- app_assoc. reflexivity. }
      unfold pre_acts, post_acts. destruct d; rewrite ?app_nil_r; try exact Fmain.
      + rewrite flat_map_app, Fmain, flat_map_app. cbn [app]. f_equal. f_equal.
        * unfold pg_column_comments. clear. induction (t_columns t) as [|c l IH]; simpl; [reflexivity|].
          rewrite flat_map_app, IH. f_equal. unfold comment_prog. now destruct (comment_change _ _).
        * now destruct (comment_change _ _).
      + rewrite flat_map_app, Fmain. reflexivity.
      + rewrite flat_map_app, Fmain. f_equal.
        transitivity (map TA (ms_defaults s t)); [rewrite <- Fb; now destruct (ms_defaults s t)|].
        unfold ms_defaults. clear. fold common.
        induction common as [|p l IH]; simpl; [reflexivity|]. rewrite map_app, IH. reflexivity.
  Qed.
End Shape.
