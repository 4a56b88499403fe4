(** The statements that the code produces can be read. *)
From Verif Require Import PyStr QuoteModel QuoteSpec QuoteProofs ObjectDict ObjectDictProofs Types Objects SqlAst Ddl Mutate Render SqlText TextSpec CatTextSpec LexProofs TextProofs1 TextProofs2 TextProofs3 StmtProofs.
From Coq Require Import String List Bool Arith Ascii ZArith Lia.
Import ListNotations.
Open Scope string_scope.
Open Scope list_scope.

Lemma make_in {A} (key : A -> string) l x : In x (od_make key l) -> In x l.
Proof.
  assert (S : forall (y : A) l x, In x (od_set key y l) -> x = y \/ In x l).
  { intros y. induction l0 as [|z l0 IH]; intros x0 I0; [destruct I0 as [<-|[]]; now left|]. cbn in I0.
    destruct (String.eqb (key z) (key y)); destruct I0 as [<-|I0]; auto; [right; now right|right; now left|].
    destruct (IH _ I0); [now left|right; now right]. }
  unfold od_make. enough (G : forall d, In x (fold_left (fun d y => od_set key y d) l d) -> In x d \/ In x l) by (intros J; destruct (G [] J) as [[]|]; auto).
  induction l as [|y l IH]; intros d J; [now left|]. cbn in J. destruct (IH _ J) as [K|K]; [|right; now right].
  apply S in K as [->|K]; [right; now left|now left].
Qed.
Lemma sort_in c c' n : cat_sort c = Ok c' -> In n c' -> In n c.
Proof.
  unfold cat_sort. intros H J. apply bind_inv in H as (ord & _ & H). unfold od_reorder in H. apply bind_inv in H as (items & Ei & H). apply Ok_inj in H. subst c'.
  apply make_in in J. destruct (map_res_inv _ _ _ _ Ei J) as (k & _ & Ek). destruct (od_get n_name k c) as [y|] eqn:G; [|discriminate]. apply Ok_inj in Ek. subst y.
  now apply get_some in G.
Qed.
Lemma inter_in {A} (key : A -> string) s t p : In p (od_intersection key s t) -> In (fst p) s /\ In (snd p) t /\ key (fst p) = key (snd p).
Proof.
  assert (G : forall l, (forall x, In x l -> In x s) -> In p (od_intersection key l t) -> In (fst p) s /\ In (snd p) t /\ key (fst p) = key (snd p)); [|now apply G].
  induction l as [|z l IH]; intros Hl J; [destruct J|]. simpl in J. destruct (od_get key (key z) t) as [w|] eqn:E.
  - destruct J as [<-|J]; [|apply IH; [intros; apply Hl; now right|exact J]]. apply get_some in E as [E1 E2]. split; [apply Hl; now left|]. split; [exact E1|now symmetry].
  - apply IH; [intros; apply Hl; now right|exact J].
Qed.

(** ** Columns *)
Lemma timestamp_expr d t e : expr_ok d e -> expr_ok d (default_expr d t e).
Proof.
  assert (X : d = DOracle \/ d = DSnow -> timestamp_literal e = true -> expr_ok d e -> expr_ok d ("TIMESTAMP " +++ e)).
  { intros Hd T (ts & Lx & B). exists (W "TIMESTAMP" :: ts). split.
    - apply (app_ends d "TIMESTAMP " e [W "TIMESTAMP"] ts); [reflexivity|reflexivity|exact Lx].
    - destruct e as [|c r]; [discriminate T|]. unfold timestamp_literal in T. cbn [match_shape] in T. apply andb_true_iff in T as [T _].
      change (Ascii.eqb QT "d") with false in T. change (Ascii.eqb "'" "d") with false in T. cbv iota in T. apply Ascii.eqb_eq in T. subst c.
      assert (N : exists v rest tl, next d (String "'" r) = Some ([L v], rest) /\ ts = L v :: tl).
      { unfold lex in Lx. cbn [String.length] in Lx. cbn [lex_go] in Lx. destruct (next d (String "'" r)) as [[t0 rest]|] eqn:En; [|discriminate].
        destruct (lex_go d (String.length r) rest) as [tl|]; [|discriminate]. injection Lx as <-.
        cbn [next] in En. change (space_char "'") with false in En. change (Ascii.eqb "'" DQ) with false in En. change (Ascii.eqb "'" QT) with true in En. cbv iota in En.
        destruct (scan_lit d r) as [[v rest']|]; [|discriminate]. injection En as <- <-. exists v, rest', tl. auto. }
      destruct N as (v & rest & tl & _ & ->). exact B. }
  intros H. unfold default_expr. destruct d; try exact H; destruct (is_timestamp t && timestamp_literal e) eqn:E; try exact H;
    apply andb_true_iff in E as [_ E]; apply X; auto.
Qed.
Lemma column_ok d c cd : col_text d c -> column_def d c = Ok cd -> col_ok d cd /\ cd_name cd = c_name c.
Proof.
  intros (T & Df & En & Ds) E. unfold column_def in E. apply bind_inv in E as (ty & Ety & E). cbv zeta in E.
  assert (D' : match (match c_default c with Some e => Some (@None string, default_expr d (c_type c) e) | None => None end) with
               | None => True | Some (_, e) => expr_ok d e end).
  { destruct (c_default c) as [e|]; [|exact Logic.I]. apply timestamp_expr. now apply Df. }
  unfold col_ok.
  assert (D2 : d <> DDelta -> match (match c_default c with Some e => Some (@None string, default_expr d (c_type c) e) | None => None end) with
               | None => True | Some (_, e) => d <> DDelta /\ expr_ok d e end) by (intros N; destruct (c_default c); auto).
  destruct d.
  3:{ apply bind_inv in E as (cm & Ecm & E). apply Ok_inj in E. subst cd. cbn [cd_type cd_default cd_comment cd_name]. repeat split; auto; [apply D2; discriminate|].
      unfold mysql_comment in Ecm. destruct (c_desc c) as [x|]; [|apply Ok_inj in Ecm; subst cm; exact Logic.I].
      destruct (Nat.ltb _ _); [discriminate|]. apply Ok_inj in Ecm. subst cm. now apply Ds. }
  all: apply Ok_inj in E; subst cd; cbn [cd_type cd_default cd_comment cd_name]; repeat split; auto; try (apply D2; discriminate).
  - destruct (c_default c) as [e|]; [|exact Logic.I]. split; [discriminate|now apply Df].
  - destruct (c_desc c); exact Logic.I.
  - destruct (c_desc c); exact Logic.I.
Qed.

(** ** ALTER TABLE *)
Lemma alter_ok_all d q acts st : name_ok q -> acts <> [] -> Forall (fun a => d = DMSSQL /\ (exists n m, a = ARenameColumn n m) \/ d = DOracle /\ (exists c, a = AAddColumn c) \/ action_ok d a) acts ->
  In st (alter_table d q acts) -> engine_has d st -> stmt_ok d st.
Proof.
  intros Q N H J Eh.
  assert (One : forall a, In a acts -> engine_has d (SAlterTable q [a]) -> d = DMSSQL \/ d = DOracle -> stmt_ok d (SAlterTable q [a])).
  { intros a Ia Ea Hd. rewrite Forall_forall in H. specialize (H a Ia). split; [exact Q|]. split; [discriminate|]. split.
    - constructor; [|constructor]. destruct H as [[-> (n & m & ->)]|[[-> (c & ->)]|H]]; [exfalso; eapply Ea; left; reflexivity|exfalso; eapply (proj2 Ea); left; reflexivity|exact H].
    - destruct Hd as [-> | ->]; [now left|reflexivity]. }
  assert (Many : d <> DMSSQL -> d <> DOracle -> stmt_ok d (SAlterTable q acts)).
  { intros N1 N2. split; [exact Q|]. split; [exact N|]. split; [|destruct d; congruence || exact Logic.I].
    eapply Forall_impl; [|exact H]. intros a [[Z _]|[[Z _]|Z]]; congruence || exact Z. }
  unfold alter_table in J.
  destruct d; try (destruct J as [<-|[]]; apply Many; discriminate); apply in_map_iff in J as (a & <- & Ia); apply One; auto.
Qed.
Lemma ok_action d l : Forall (action_ok d) l ->
  Forall (fun a => d = DMSSQL /\ (exists n m, a = ARenameColumn n m) \/ d = DOracle /\ (exists c, a = AAddColumn c) \/ action_ok d a) l.
Proof. intros H. eapply Forall_impl; [|exact H]. auto. Qed.
Lemma create_act d c a : col_text d c -> create_column d c = Ok a ->
  d = DMSSQL /\ (exists n m, a = ARenameColumn n m) \/ d = DOracle /\ (exists c, a = AAddColumn c) \/ action_ok d a.
Proof.
  intros H E. unfold create_column in E. apply bind_inv in E as (cd & Ecd & E). apply Ok_inj in E. subst a.
  apply column_ok in Ecd; [|exact H]. destruct Ecd as [Hc _].
  assert (Dec : d = DOracle \/ d <> DOracle) by (destruct d; auto; right; discriminate). destruct Dec as [-> |]; [right; left; eauto|].
  right. right. split; assumption.
Qed.
Lemma soft_act d c a : col_text d c -> soft_drop_column d c = Ok a ->
  d = DMSSQL /\ (exists n m, a = ARenameColumn n m) \/ d = DOracle /\ (exists c, a = AAddColumn c) \/ action_ok d a.
Proof.
  intros H E. unfold soft_drop_column in E. destruct d; try (apply Ok_inj in E; subst a; right; right; discriminate).
  - apply bind_inv in E as (cd & Ecd & E). apply Ok_inj in E. subst a. right. right. split; [reflexivity|].
    apply column_ok in Ecd; [|exact H]. exact (proj1 Ecd).
  - apply Ok_inj in E; subst a. left. eauto.
Qed.
Lemma mutate_act d a b acts : col_text d b -> mutate_column d a b = Ok acts -> Forall (action_ok d) acts.
Proof.
  intros H E. pose proof H as (T & Df & En & Ds).
  assert (Base : standard_alter d -> mutate_column_base a b = Ok acts -> Forall (action_ok d) acts).
  { intros Sd Eb. unfold mutate_column_base in Eb. destruct (col_eqb a b); [apply Ok_inj in Eb; subst acts; constructor|].
    apply bind_inv in Eb as (ty & Ety & Eb). cbv zeta in Eb. apply Ok_inj in Eb. subst acts. rewrite !Forall_app. refine (conj _ (conj _ (conj _ _))).
    - destruct (type_eqb (c_type a) (c_type b)); repeat constructor; assumption.
    - destruct (c_nullable a && negb (c_nullable b)); [repeat constructor; assumption|]. destruct (negb (c_nullable a) && c_nullable b); repeat constructor; assumption.
    - assert (X : forall x, c_default b = Some x -> Forall (action_ok d) [ASetDefault (c_name a) x]) by (intros x Hx; repeat constructor; auto).
      destruct (c_default a) as [x|], (c_default b) as [y|]; [|repeat constructor; assumption| |constructor].
      + destruct (os_eqb _ _); [constructor|apply X; reflexivity].
      + destruct (os_eqb _ _); [constructor|apply X; reflexivity].
    - destruct (c_identity a && negb (c_identity b)); [repeat constructor; assumption|]. destruct (negb (c_identity a) && c_identity b); repeat constructor; assumption. }
  destruct d; cbn [mutate_column] in E; try (apply Base; [exact Logic.I|exact E]); clear Base.
  - unfold mutate_column_mysql in E. apply bind_inv in E as (ch & _ & E). destruct ch; [|apply Ok_inj in E; subst acts; constructor].
    apply bind_inv in E as (cd & Ecd & E). apply Ok_inj in E. subst acts. apply column_ok in Ecd; [|exact H]. repeat constructor; apply Ecd.
  - unfold mutate_column_mssql in E. destruct (negb _); [discriminate|]. destruct (_ || _); [|apply Ok_inj in E; subst acts; constructor].
    apply bind_inv in E as (ty & Ety & E). apply Ok_inj in E. subst acts. repeat constructor. exact T.
  - unfold mutate_column_oracle in E. apply bind_inv in E as (ty & Ety & E). cbv zeta in E.
    set (df := if os_eqb (c_default a) (c_default b) then None else Some (match c_default b with Some e => Some (default_expr DOracle (c_type b) e) | None => None end)).
    set (tt := if type_eqb (c_type a) (c_type b) then None else Some (c_type b)).
    set (nl := if Bool.eqb (c_nullable a) (c_nullable b) then None else Some (c_nullable b)).
    set (id := if Bool.eqb (c_identity a) (c_identity b) then None else Some (c_identity b)).
    assert (Ec : ty ++ (if os_eqb (c_default a) (c_default b) then [] else [OSetDefault (match c_default b with Some e => Some (default_expr DOracle (c_type b) e) | None => None end)])
        ++ (if Bool.eqb (c_nullable a) (c_nullable b) then [] else [OSetNull (c_nullable b)])
        ++ (if Bool.eqb (c_identity a) (c_identity b) then [] else [OSetIdentity (c_identity b)]) = ora_changes tt df nl id).
    { unfold ora_changes, tt, df, nl, id. destruct (type_eqb _ _).
      - apply Ok_inj in Ety. subst ty. destruct (os_eqb _ _), (Bool.eqb (c_nullable a) _), (Bool.eqb (c_identity a) _); reflexivity.
      - apply bind_inv in Ety as (s & _ & Ety). apply Ok_inj in Ety. subst ty. destruct (os_eqb _ _), (Bool.eqb (c_nullable a) _), (Bool.eqb (c_identity a) _); reflexivity. }
    rewrite Ec in E.
    assert (Ok' : Forall (ora_ok DOracle) (ora_changes tt df nl id)).
    { unfold ora_changes, tt, df, nl, id. rewrite !Forall_app. refine (conj _ (conj _ (conj _ _))).
      - destruct (type_eqb _ _); [constructor|]. constructor; [exact T|constructor].
      - destruct (os_eqb _ _); [constructor|]. constructor; [|constructor]. cbn [ora_ok]. destruct (c_default b) as [e|] eqn:Eb; [|exact Logic.I]. apply timestamp_expr. now apply Df.
      - destruct (Bool.eqb (c_nullable a) _); [constructor|]. constructor; [exact Logic.I|constructor].
      - destruct (Bool.eqb (c_identity a) _); [constructor|]. constructor; [exact Logic.I|constructor]. }
    assert (X : acts = [] \/ acts = [AOraModify (c_name a) (ora_changes tt df nl id)]).
    { destruct (ora_changes tt df nl id); apply Ok_inj in E; auto. }
    destruct X as [-> | ->]; [constructor|]. constructor; [|constructor]. split; [reflexivity|]. split; [exact Ok'|]. exists tt, df, nl, id. reflexivity.
Qed.

(** ** Tables *)
Lemma insert_ok d t l st : table_text d t -> enum_insert t = Ok l -> In st l -> stmt_ok d st.
Proof.
  intros (Q & _ & _ & _ & _ & En) E J. unfold enum_insert in E. destruct (t_enum t) as [vs|]; [|apply Ok_inj in E; subst l; destruct J].
  destruct (En vs eq_refl) as (N & R & c & Ic & Nc & Idc).
  apply bind_inv in E as (cs & Ecs & E). apply bind_inv in E as (u & _ & E). apply Ok_inj in E. subst l. destruct J as [<-|[]].
  split; [exact Q|]. split; [|repeat split; auto].
  unfold get_value_columns in Ecs. cbn [get_columns bind] in Ecs. apply Ok_inj in Ecs. intros Z. apply map_eq_nil in Z. subst cs.
  assert (F : In c (filter (fun c => negb (str_in (c_name c) (t_pk t)) && negb (c_identity c)) (t_columns t))).
  { apply filter_In. split; [exact Ic|]. rewrite Idc. apply andb_true_iff. split; [|reflexivity]. apply negb_true_iff. now apply str_in_false. }
  rewrite Z in F. destruct F.
Qed.
Lemma create_table_ok d t l st : table_text d t -> create_table d t = Ok l -> In st l -> stmt_ok d st.
Proof.
  intros H E J. pose proof H as (Q & Pk & Cs & Ks & Ds & En). unfold create_table in E. apply bind_inv in E as (cols & Ec & E). apply bind_inv in E as (ins & Ei & E). apply Ok_inj in E. subst l.
  destruct J as [<-|J].
  - split; [exact Q|]. split; [|split; [exact Pk|]].
    + apply Forall_forall. intros cd Icd. destruct (map_res_inv _ _ _ _ Ec Icd) as (c & Ic & Hc). apply column_ok in Hc; [apply Hc|now apply Cs].
    + unfold inline_table_comment. destruct d; try exact Logic.I.
      * destruct (t_desc t) as [x|]; [|exact Logic.I]. specialize (Ds eq_refl x eq_refl). destruct (first_line x); exact Logic.I || exact Ds.
      * destruct (t_desc t) as [[|]|]; exact Logic.I.
      * destruct (t_desc t) as [[|]|]; exact Logic.I.
  - apply in_app_or in J as [J|J]; [|eapply insert_ok; eauto].
    unfold create_comments in J. destruct d; try (destruct J; fail). apply in_app_or in J as [J|J].
    + destruct (t_desc t); [|destruct J]. destruct J as [<-|[]]. split; auto.
    + apply in_flat_map in J as (c & _ & J). destruct (c_desc c); [|destruct J]. destruct J as [<-|[]]. split; auto.
Qed.
Lemma constraints_ok d t k : table_text d t -> In k (table_constraints t) -> constr_ok d k.
Proof. intros (_ & _ & _ & Ks & _) J. unfold table_constraints in J. apply filter_In in J as [J1 J2]. auto. Qed.
Lemma add_constraints_ok d t st : table_text d t -> In st (add_constraints d t) -> engine_has d st -> stmt_ok d st.
Proof.
  intros H J Eh. unfold add_constraints in J.
  destruct (table_constraints t) as [|k ks] eqn:E; [destruct J|]. rewrite <- E in J.
  assert (N : map AAddConstraint (table_constraints t) <> []) by (rewrite E; discriminate).
  assert (F : Forall (action_ok d) (map AAddConstraint (table_constraints t))).
  { apply Forall_map. apply Forall_forall. intros x Ix. exact (constraints_ok d t x H Ix). }
  assert (G : In st (alter_table d (t_name t) (map AAddConstraint (table_constraints t))) -> stmt_ok d st).
  { intros J'. eapply alter_ok_all; eauto using ok_action. apply H. }
  destruct d; try (apply G; exact J). destruct J as [<-|[]]. split; [apply H|]. split; [exact N|]. split; [exact F|]. right. left.
  apply Forall_map. apply Forall_forall. intros. exact Logic.I.
Qed.
Lemma drop_constraints_ok d t st : table_text d t -> In st (drop_constraints t) -> engine_has d st -> stmt_ok d st.
Proof.
  intros H J Eh. unfold drop_constraints in J. destruct (table_constraints t) as [|k ks] eqn:E; [destruct J|]. destruct J as [<-|[]].
  split; [apply H|]. split; [discriminate|]. split; [apply Forall_map, Forall_forall; intros; exact Logic.I|].
  destruct d; try exact Logic.I; [right; right; apply Forall_map, Forall_forall; intros; exact Logic.I|exact (proj1 Eh)].
Qed.
Lemma my_comment_ok s t st : table_text DMySQL t -> In st (my_table_comment s t) -> stmt_ok DMySQL st.
Proof.
  intros (Q & _ & _ & _ & Ds & _) J. unfold my_table_comment, short_desc in J.
  assert (G : forall x, t_desc t = Some x -> stmt_ok DMySQL (SMyTableComment (t_name t) (first_line x))) by (intros x Hx; split; [exact Q|split; [reflexivity|now apply Ds]]).
  destruct (t_desc s), (t_desc t).
  - destruct (String.eqb _ _); [destruct J|]. destruct J as [<-|[]]. now apply G.
  - destruct J as [<-|[]]. repeat split; auto.
  - destruct J as [<-|[]]. now apply G.
  - destruct J.
Qed.
Lemma migrate_ok d st0 s tt t l st : table_text d st0 -> table_text d tt -> col_text d s -> migrate_column d st0 s tt t = Ok l -> In st l -> stmt_ok d st.
Proof.
  intros Hs Ht Hc E J.
  assert (R : forall r, get_constraint tt (c_name t) = Ok r -> name_ok (fst r)).
  { intros r Er. destruct (get_constraint_in _ _ _ Er) as (n & cs & K). destruct Ht as (_ & _ & _ & Ks & _). exact (proj1 (proj2 (Ks _ K eq_refl))). }
  unfold migrate_column in E. destruct d; try (apply Ok_inj in E; subst l; destruct J; fail).
  - apply bind_inv in E as (r & Er & E). apply Ok_inj in E. subst l. destruct J as [<-|[]]. split; [apply Hs|now apply R].
  - apply bind_inv in E as (r & Er & E). apply Ok_inj in E. subst l. apply in_app_or in J as [J|[<-|[]]]; [|split; [apply Hs|now apply R]].
    destruct (base_type (c_type s)) eqn:Eb; try (destruct J; fail); destruct J as [<-|[]].
    + split; [now apply R|]. split; [apply Hs|reflexivity].
    + destruct (proj1 (proj2 (proj2 Hc)) _ Eb) as [N F]. split; [now apply R|]. split; [discriminate|]. split; [destruct (map PStr _) eqn:Z; [apply map_eq_nil in Z; congruence|discriminate]|]. split; [|reflexivity].
      apply Forall_map. exact F.
Qed.
Lemma mutate_table_ok d s t l st : table_text d s -> table_text d t -> mutate_table d s t = Ok l -> In st l -> engine_has d st -> stmt_ok d st.
Proof.
  intros Hs Ht E J Eh. unfold mutate_table in E. apply bind_inv in E as (b & B & E). apply Ok_inj in E. subst l.
  assert (Qs : name_ok (t_name s)) by apply Hs. assert (Qt : name_ok (t_name t)) by apply Ht.
  assert (Base : In st b -> stmt_ok d st).
  { clear J. intros J. unfold mutate_table_base in B. apply bind_inv in B as (u & _ & B). cbv zeta in B.
    set (common := od_intersection c_name (t_columns s) (t_columns t)) in *.
    set (mig := filter (fun p => is_column_migrated d (fst p) (snd p)) common) in *.
    assert (Hc : forall p, In p common -> col_text d (fst p) /\ col_text d (snd p)).
    { intros p Ip. apply inter_in in Ip as (I1 & I2 & _). split; [apply Hs|apply Ht]; assumption. }
    assert (Hm : forall p, In p mig -> In p common) by (intros p Ip; now apply filter_In in Ip).
    apply bind_inv in B as (soft & B1 & B). apply table_error_ok in B1.
    apply bind_inv in B as (mc & B2 & B). apply table_error_ok in B2.
    apply bind_inv in B as (nc & B3 & B). apply table_error_ok in B3.
    apply bind_inv in B as (mv & B4 & B). apply table_error_ok in B4.
    apply bind_inv in B as (al & B5 & B). apply table_error_ok in B5.
    match type of B with (if ?z then _ else _) = _ => destruct z; [discriminate|] end. apply Ok_inj in B. subst b.
    rewrite !in_app_iff in J. destruct J as [J|[J|[J|J]]].
    - destruct (concat_res_in _ _ _ _ B1 J) as (p & r & Ip & Hr & Ir). apply bind_inv in Hr as (a & Ea & Hr). apply Ok_inj in Hr. subst r.
      eapply alter_ok_all; [| | |exact Ir|exact Eh]; [assumption|discriminate|]. constructor; [|constructor]. eapply soft_act; eauto. apply Hc, Hm, Ip.
    - destruct (mc ++ nc) as [|x0 xs] eqn:Em; [destruct J|]. rewrite <- Em in J. eapply alter_ok_all; [| | |exact J|exact Eh]; [assumption|rewrite Em; discriminate|].
      apply Forall_forall. intros x Ix. apply in_app_or in Ix as [Ix|Ix].
      + destruct (map_res_inv _ _ _ _ B2 Ix) as (p & Ip & Hp). eapply create_act; eauto. apply Hc, Hm, Ip.
      + destruct (map_res_inv _ _ _ _ B3 Ix) as (c & Ic & Hp). eapply create_act; eauto. apply Ht. now apply difference_in in Ic.
    - destruct (concat_res_in _ _ _ _ B4 J) as (p & r & Ip & Hr & Ir). eapply migrate_ok; [exact Hs|exact Ht| |exact Hr|exact Ir]. apply Hc, Hm, Ip.
    - match type of J with In _ (match ?z with _ => _ end) => set (acts := z) in *; assert (F : Forall (action_ok d) acts) end.
      { unfold acts. apply Forall_app. split; [apply Forall_map, Forall_forall; intros; exact Logic.I|].
        apply Forall_app. split.
        { apply Forall_forall. intros x Ix. destruct (concat_res_in _ _ _ _ B5 Ix) as (p & r & Ip & Hr & Ir).
          assert (G := mutate_act d _ _ _ (proj2 (Hc p Ip)) Hr). rewrite Forall_forall in G. auto. }
        apply Forall_app. split; [apply Forall_map, Forall_forall; intros c _; unfold drop_column; destruct d; try exact Logic.I; destruct (c_default c); [reflexivity|exact Logic.I]|].
        apply Forall_app. split; [apply Forall_map, Forall_forall; intros; exact Logic.I|].
        apply Forall_map, Forall_forall. intros k Ik. apply filter_In in Ik as [Ik1 Ik2]. apply difference_in in Ik1 as [Ik1 _].
        destruct Ht as (_ & _ & _ & Ks & _). now apply Ks. }
      clearbody acts. destruct acts as [|x0 xs]; [destruct J|]. eapply alter_ok_all; [| | |exact J|exact Eh]; [assumption|discriminate|apply ok_action; exact F]. }
  destruct d; auto.
  - apply in_app_or in J as [J|J]; [auto|]. apply in_app_or in J as [J|J].
    + unfold pg_column_comments in J. apply in_flat_map in J as (c & _ & J). cbv zeta in J. destruct (comment_change _ _); [|destruct J]. destruct J as [<-|[]]. split; auto.
    + destruct (comment_change _ _); [|destruct J]. destruct J as [<-|[]]. split; auto.
  - apply in_app_or in J as [J|J]; [auto|]. eapply my_comment_ok; eauto.
  - apply in_app_or in J as [J|J]; [|auto].
    assert (F : Forall (action_ok DMSSQL) (ms_defaults s t)).
    { apply Forall_forall. intros x Ix. unfold ms_defaults in Ix. apply in_flat_map in Ix as (p & Ip & Ix). cbv zeta in Ix. destruct (os_eqb _ _); [destruct Ix|].
      apply inter_in in Ip as (_ & I2 & _). apply in_app_or in Ix as [Ix|Ix].
      - destruct (c_default (fst p)); [|destruct Ix]. destruct Ix as [<-|[]]. exact Logic.I.
      - destruct (c_default (snd p)) eqn:Ed; [|destruct Ix]. destruct Ix as [<-|[]]. split; [reflexivity|].
        destruct Ht as (_ & _ & Cs & _). now apply (Cs _ I2). }
    destruct (ms_defaults s t) as [|x0 xs]; [destruct J|]. eapply alter_ok_all; [| | |exact J|exact Eh]; [assumption|discriminate|apply ok_action; exact F].
Qed.

(** ** Types *)
Lemma create_struct_ok d s l st : struct_text d s -> create_struct d s = Ok l -> In st l -> stmt_ok d st.
Proof.
  intros (Q & N & H) E J. unfold create_struct in E. apply bind_inv in E as (ms & Em & E). apply Ok_inj in E. subst l. destruct J as [<-|J].
  - split; [exact Q|]. split.
    + intros ->. destruct (s_members s) as [|m l]; [congruence|]. cbn [map_res] in Em. apply bind_inv in Em as (x & _ & Em). apply bind_inv in Em as (y & _ & Em). discriminate.
    + apply Forall_forall. intros x Ix. destruct (map_res_inv _ _ _ _ Em Ix) as (m & Im & Hm). apply bind_inv in Hm as (ty & _ & Hm). apply Ok_inj in Hm. subst x. now apply H.
  - destruct d; try (destruct J; fail). destruct (s_desc s); [|destruct J]. destruct J as [<-|[]]. split; auto.
Qed.
Lemma mutate_struct_ok d s t l st : struct_text d s -> struct_text d t -> mutate_struct d s t = Ok l -> In st l -> stmt_ok d st.
Proof.
  intros Hs Ht E J. unfold mutate_struct in E. apply bind_inv in E as (b & B & E). apply Ok_inj in E. subst l. apply in_app_or in J as [J|J].
  - unfold mutate_struct_base in B. apply bind_inv in B as (u & _ & B). cbv zeta in B. apply bind_inv in B as (al & Ea & B). apply bind_inv in B as (ad & Ead & B). apply Ok_inj in B. subst b.
    unfold struct_alter in J. set (acts := map (fun m => SaDrop (m_name m)) (od_difference m_name (s_members s) (s_members t)) ++ al ++ ad) in *.
    assert (F : Forall (fun a => match a with SaDrop _ => True | SaSetType _ t | SaAdd _ t => type_ok d t end) acts).
    { unfold acts. apply Forall_app. split; [apply Forall_map, Forall_forall; intros; exact Logic.I|]. apply Forall_app. split; apply Forall_forall; intros x Ix.
      - destruct (concat_res_in _ _ _ _ Ea Ix) as (p & r & Ip & Hr & Ir). apply inter_in in Ip as (_ & I2 & _). destruct (mem_eqb _ _); [apply Ok_inj in Hr; subst r; destruct Ir|].
        apply bind_inv in Hr as (ty & _ & Hr). apply Ok_inj in Hr. subst r. destruct Ir as [<-|[]]. now apply Ht.
      - destruct (map_res_inv _ _ _ _ Ead Ix) as (m & Im & Hm). apply bind_inv in Hm as (ty & _ & Hm). apply Ok_inj in Hm. subst x. apply Ht. now apply difference_in in Im. }
    clearbody acts. destruct acts as [|a acts]; [destruct J|]. destruct J as [<-|[]]. split; [apply Hs|]. split; [discriminate|exact F].
  - destruct d; try (destruct J; fail). destruct (comment_change _ _); [|destruct J]. destruct J as [<-|[]]. split; [apply Ht|reflexivity].
Qed.
Lemma mutate_enum_ok d s t l st : enum_text d s -> enum_text d t -> mutate_enum s t = Ok l -> In st l -> stmt_ok d st.
Proof.
  intros Hs (_ & _ & Ht) E J. unfold mutate_enum in E. apply bind_inv in E as (u & _ & E). destruct (filter _ (e_values s)); [|discriminate]. apply Ok_inj in E. subst l.
  apply in_map_iff in J as (v & <- & Iv). apply filter_In in Iv as [Iv _]. rewrite Forall_forall in Ht. split; [apply Hs|auto].
Qed.

(** ** Catalogs *)
Lemma create_schema_ok d n st : (d = DMSSQL -> has_char QT (n_name n) = false) -> In st (create_schema d n) -> stmt_ok d st.
Proof.
  intros H J. unfold create_schema in J. destruct (n_name n) as [|c r]; [destruct J|]. destruct J as [<-|[]].
  assert (X : d = DMSSQL -> String c r <> "" /\ has_char QT (String c r) = false) by (intros Z; split; [discriminate|now apply H]).
  destruct d; try exact Logic.I; exact X.
Qed.
Lemma create_objects_ok d c n l st : cat_text d c -> In n c -> create_objects d n = Ok l -> In st l -> stmt_ok d st.
Proof.
  intros H In_ E J. destruct (H n In_) as (_ & He & Hs & Ht). unfold create_objects in E. apply bind_inv in E as (ss & Ess & E). apply bind_inv in E as (ts & Ets & E). apply Ok_inj in E. subst l.
  rewrite !in_app_iff in J. destruct J as [J|[J|J]].
  - apply in_map_iff in J as (e & <- & Ie). destruct (He e Ie) as (A & _ & B). split; assumption.
  - destruct (concat_res_in _ _ _ _ Ess J) as (s & r & Is & Hr & Ir). eapply create_struct_ok; eauto.
  - destruct (concat_res_in _ _ _ _ Ets J) as (t & r & It & Hr & Ir). eapply create_table_ok; eauto.
Qed.
Lemma drop_objects_ok d c n st : cat_text d c -> In n c -> In st (drop_objects n) -> stmt_ok d st.
Proof.
  intros H In_ J. destruct (H n In_) as (_ & He & Hs & Ht). unfold drop_objects in J. rewrite !in_app_iff in J.
  destruct J as [J|[J|J]]; apply in_map_iff in J as (x & <- & Ix); apply in_rev in Ix.
  - exact (proj1 (Ht x Ix)).
  - exact (proj1 (Hs x Ix)).
  - exact (proj1 (He x Ix)).
Qed.
Lemma drop_schema_ok d n st : In st (drop_schema d n) -> stmt_ok d st.
Proof. unfold drop_schema. destruct (n_name n); [intros []|]. intros [<-|[]]. exact Logic.I. Qed.
Lemma mutate_namespace_ok d o cs ct s t l st : cat_text d cs -> cat_text d ct -> In s cs -> In t ct -> mutate_namespace d o s t = Ok l -> In st l -> engine_has d st -> stmt_ok d st.
Proof.
  intros Hcs Hct Is It E J Eh. destruct (Hcs s Is) as (_ & Hse & Hss & Hst). destruct (Hct t It) as (_ & Hte & Hts & Htt).
  unfold mutate_namespace in E. destruct (negb _); [discriminate|]. cbv zeta in E.
  apply bind_inv in E as (ss & E1 & E). apply bind_inv in E as (ts & E2 & E). apply bind_inv in E as (me & E3 & E). apply bind_inv in E as (ms & E4 & E). apply bind_inv in E as (mt & E5 & E).
  apply Ok_inj in E. subst l. rewrite !in_app_iff in J.
  destruct J as [J|[J|[J|[J|[J|[J|[J|[J|[J|[J|[J|J]]]]]]]]]]].
  - apply in_map_iff in J as (e & <- & Ie). apply difference_in in Ie as [Ie _]. destruct (Hte e Ie) as (A & _ & B). split; assumption.
  - destruct (concat_res_in _ _ _ _ E1 J) as (x & r & Ix & Hr & Ir). apply difference_in in Ix as [Ix _]. eapply create_struct_ok; eauto.
  - apply in_map_iff in J as (e & <- & Ie). apply in_flat_map in Ie as (e' & Ie' & Ie). apply in_map_iff in Ie as (tb & -> & _). apply difference_in in Ie' as [Ie' _]. exact (proj1 (Hse e Ie')).
  - destruct (concat_res_in _ _ _ _ E2 J) as (x & r & Ix & Hr & Ir). apply difference_in in Ix as [Ix _]. eapply create_table_ok; eauto.
  - apply in_flat_map in J as (x & Ix & J). apply difference_in in Ix as [Ix _]. eapply add_constraints_ok; eauto.
  - apply in_flat_map in J as (e & Ie & J). apply in_map_iff in J as (tb & <- & Itb). apply filter_In in Itb as [Itb _]. apply difference_in in Itb as [Itb _]. apply difference_in in Ie as [Ie _].
    destruct (Hse e Ie) as (_ & N & F). split; [exact (proj1 (Htt tb Itb))|]. split; [discriminate|]. split; [destruct (e_values e); [congruence|discriminate]|]. split; [apply Forall_map; exact F|].
    destruct d; try exact Logic.I. discriminate.
  - destruct (concat_res_in _ _ _ _ E3 J) as (p & r & Ip & Hr & Ir). apply inter_in in Ip as (I1 & I2 & _). eapply mutate_enum_ok; [apply Hse, I1|apply Hte, I2|exact Hr|exact Ir].
  - destruct (concat_res_in _ _ _ _ E4 J) as (p & r & Ip & Hr & Ir). apply inter_in in Ip as (I1 & I2 & _). eapply mutate_struct_ok; [apply Hss, I1|apply Hts, I2|exact Hr|exact Ir].
  - destruct (concat_res_in _ _ _ _ E5 J) as (p & r & Ip & Hr & Ir). apply inter_in in Ip as (I1 & I2 & _). eapply mutate_table_ok; [apply Hst, I1|apply Htt, I2|exact Hr|exact Ir|exact Eh].
  - destruct (allow_drop_table o); [|destruct J]. apply in_map_iff in J as (x & <- & Ix). apply difference_in in Ix as [Ix _]. exact (proj1 (Hst x Ix)).
  - destruct (allow_drop_struct o); [|destruct J]. apply in_map_iff in J as (x & <- & Ix). apply difference_in in Ix as [Ix _]. exact (proj1 (Hss x Ix)).
  - destruct (allow_drop_enum o); [|destruct J]. apply in_map_iff in J as (e & <- & Ie). apply difference_in in Ie as [Ie _]. pose proof (proj1 (Hse e Ie)) as Q.
    match goal with |- stmt_ok d (if ?z then _ else _) => destruct z end; [|exact Q]. unfold hard_drop_enum. cbn [stmt_ok]. destruct (e_name e); exact Q.
Qed.
Lemma mutate_ok d o s t s' t' ss : cat_text d s -> cat_text d t -> mutate_catalog d o s t = Ok (s', t', ss) ->
  Forall (engine_has d) ss -> Forall (stmt_ok d) ss.
Proof.
  intros Hs Ht E Eh. unfold mutate_catalog in E. apply bind_inv in E as (s1 & E1 & E). apply bind_inv in E as (t1 & E2 & E). apply bind_inv in E as (ss1 & E3 & E).
  apply Ok_inj in E. injection E as -> -> ->.
  assert (Hs' : cat_text d s') by (intros n In_; apply Hs; eapply sort_in; eauto). assert (Ht' : cat_text d t') by (intros n In_; apply Ht; eapply sort_in; eauto).
  rewrite Forall_forall in Eh |- *. intros st J. specialize (Eh st J).
  unfold mutate_sorted in E3. cbv zeta in E3. apply bind_inv in E3 as (cr & E4 & E3). apply bind_inv in E3 as (mu & E5 & E3). apply Ok_inj in E3. subst ss.
  rewrite !in_app_iff in J. destruct J as [J|[J|[J|[J|[J|J]]]]].
  - apply in_flat_map in J as (n & In_ & J). apply difference_in in In_ as [In_ _]. eapply create_schema_ok; eauto. apply (Ht' n In_).
  - destruct (concat_res_in _ _ _ _ E4 J) as (n & r & In_ & Hr & Ir). apply difference_in in In_ as [In_ _]. eapply create_objects_ok; eauto.
  - apply in_flat_map in J as (n & In_ & J). apply difference_in in In_ as [In_ _]. unfold ns_add_constraints in J. apply in_flat_map in J as (tb & It & J).
    eapply add_constraints_ok; eauto. now apply (Ht' n In_).
  - destruct (concat_res_in _ _ _ _ E5 J) as (p & r & Ip & Hr & Ir). apply inter_in in Ip as (I1 & I2 & _). eapply mutate_namespace_ok; [exact Hs'|exact Ht'|exact I1|exact I2|exact Hr|exact Ir|exact Eh].
  - apply in_flat_map in J as (n & In_ & J). apply difference_in in In_ as [In_ _]. unfold ns_drop_constraints in J. apply in_flat_map in J as (tb & It & J).
    eapply drop_constraints_ok; eauto. now apply (Hs' n In_).
  - destruct (allow_drop_namespace o); [|destruct J]. apply in_app_or in J as [J|J].
    + apply in_flat_map in J as (n & In_ & J). apply difference_in in In_ as [In_ _]. eapply drop_objects_ok; [exact Hs'|exact In_|exact J].
    + apply in_flat_map in J as (n & In_ & J). eapply drop_schema_ok; eauto.
Qed.
(** creating everything: no action that an engine lacks *)
Lemma create_ok d c c' ss : cat_text d c -> cat_create d c = Ok (c', ss) -> Forall (stmt_ok d) (ss ++ cat_add_constraints d c').
Proof.
  intros H E. unfold cat_create in E. apply bind_inv in E as (c1 & E1 & E). apply bind_inv in E as (os & E2 & E). apply Ok_inj in E. injection E as -> <-.
  assert (H' : cat_text d c') by (intros n In_; apply H; eapply sort_in; eauto).
  apply Forall_forall. intros st J. rewrite !in_app_iff in J. destruct J as [[J|J]|J].
  - apply in_flat_map in J as (n & In_ & J). eapply create_schema_ok; eauto. apply (H' n In_).
  - destruct (concat_res_in _ _ _ _ E2 J) as (n & r & In_ & Hr & Ir). eapply create_objects_ok; eauto.
  - unfold cat_add_constraints in J. apply in_flat_map in J as (n & In_ & J). unfold ns_add_constraints in J. apply in_flat_map in J as (tb & It & J).
    eapply add_constraints_ok; eauto; [now apply (H' n In_)|].
    unfold add_constraints in J. destruct (table_constraints tb) as [|k ks]; [destruct J|].
    destruct d; try exact Logic.I; cbn [engine_has].
    + destruct J as [<-|[]]. intros n0 m Z. apply in_map_iff in Z as (? & Z & _). discriminate.
    + unfold alter_table in J. apply in_map_iff in J as (a & <- & Ia). apply in_map_iff in Ia as (k0 & <- & _). split; [reflexivity|]. intros x [Z|[]]. discriminate.
Qed.
Lemma drop_ok d c c' ss : cat_text d c -> cat_drop d c = Ok (c', ss) -> Forall (stmt_ok d) ss.
Proof.
  intros H E. unfold cat_drop in E. apply bind_inv in E as (c1 & E1 & E). apply Ok_inj in E. injection E as -> <-.
  assert (H' : cat_text d c') by (intros n In_; apply H; eapply sort_in; eauto).
  apply Forall_forall. intros st J. apply in_app_or in J as [J|J]; apply in_flat_map in J as (n & In_ & J); apply in_rev in In_; [eapply drop_objects_ok; eauto|eapply drop_schema_ok; eauto].
Qed.
