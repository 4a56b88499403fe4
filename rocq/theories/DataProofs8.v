(** Rows of the tables that the CREATE script of a catalog makes. *)
From Verif Require Import PyStr QuoteModel ObjectDict ObjectDictSpec ObjectDictProofs Types Objects SqlAst Ddl Mutate DbSpec CatSpec MutSpec StmtSpec EqProofs NoopProofs KeySpec SortProofs StmtProofs StmtProofs2 DataSpec DataProofs1 DataProofs2 DataProofs3 DataProofs4 DataProofs5 DataProofs6.
From stdpp Require Import gmap strings.
Open Scope list_scope.

(** the columns that an enumeration table fills *)
Definition value_names (x : table) : list string :=
  map c_name (List.filter (fun c => negb (existsb (String.eqb (c_name c)) (t_pk x)) && negb (c_identity c)) (t_columns x)).
(** the rows of a table after its creation *)
Definition initial_rows (x : table) (rows : list record) : Prop :=
  match t_enum x with None => rows = [] | Some vs => Forall2 (gives (value_names x)) vs rows end.

Section Create.
  Context (S : server) (d : dialect) (c : catalog) (W : cat_wf d c).
  Lemma gives_same cols v r r' : (forall n, r' n = r n) -> gives cols v r -> gives cols v r'.
  Proof.
    intros E H. destruct v; simpl in *; try (destruct H as (n & -> & H); exists n; now rewrite E). eapply Forall2_impl; [exact H|]. intros n x Hn. cbv beta in *. now rewrite E.
  Qed.
  Lemma initial_same x rows rows' : Forall2 same_record rows rows' -> initial_rows x rows -> initial_rows x rows'.
  Proof.
    unfold initial_rows. destruct (t_enum x) as [vs|].
    - intros F G. revert rows' F. induction G as [|v r vs rows G1 G IH]; intros rows' F; inversion F; subst; constructor; auto. eapply gives_same; eauto.
    - intros F ->. inversion F. reflexivity.
  Qed.
  Lemma insert_all cols vs : forall rows rows', insert_rows S cols NoClause vs rows rows' -> exists new, rows' = rows ++ new /\ Forall2 (gives cols) vs new.
  Proof.
    induction vs as [|v vs IH]; intros rows rows' H; simpl in H; [subst; exists []; rewrite app_nil_r; auto|]. destruct H as (mid & H1 & H2).
    destruct H1 as [(r & G & -> & _)|(Z & _)]; [|congruence]. destruct (IH _ _ H2) as (new & -> & F). exists (r :: new). split; [now rewrite <- app_assoc|]. constructor; auto.
  Qed.
  Lemma script_inert l D D' k : (forall st, In st l -> inert st) -> script S l D D' -> D' k = D k.
  Proof.
    revert D. induction l as [|st l IH]; intros D I Hs; [apply Hs|]. destruct Hs as (M & H1 & H2). rewrite (IH M); auto; [|intros; apply I; now right]. eapply inert_step; eauto. apply I. now left.
  Qed.
  Lemma script_other l D D' k : (forall st, In st l -> inert st \/ exists q, stmt_target st = Some q /\ key_of q <> k) -> script S l D D' -> D' k = D k.
  Proof.
    revert D. induction l as [|st l IH]; intros D I Hs; [apply Hs|]. destruct Hs as (M & H1 & H2). rewrite (IH M); auto; [|intros; apply I; now right].
    destruct (I st (or_introl eq_refl)) as [Z|(q & T & K)]; [eapply inert_step; eauto|eapply other_step; eauto].
  Qed.
  Lemma create_table_rows x l D D' : create_table d x = Ok l -> script S l D D' -> initial_rows x (D' (key_of (t_name x))).
  Proof.
    unfold create_table. destruct (map_res (column_def d) (t_columns x)) as [cols|]; [|discriminate]. cbn [bind]. destruct (enum_insert x) as [ins|] eqn:E; [|discriminate]. cbn [bind]. intros [= <-] Hs.
    destruct Hs as (M & (_ & H1 & _) & H2). apply script_app in H2 as (M' & H3 & H4).
    assert (K : M' (key_of (t_name x)) = []).
    { rewrite <- H1. eapply script_inert; [|exact H3]. intros st I. unfold create_comments in I. destruct d; try (destruct I; fail). apply in_app_or in I as [I|I].
      - destruct (t_desc x); [destruct I as [<-|[]]|destruct I]. exact Logic.I.
      - apply in_flat_map in I as (cc & _ & I). destruct (c_desc cc); [destruct I as [<-|[]]|destruct I]. exact Logic.I. }
    unfold enum_insert in E. unfold initial_rows. destruct (t_enum x) as [vs|]; [|injection E as <-; rewrite H4; exact K].
    unfold get_value_columns in E. cbn [get_columns bind] in E. destruct (map_res constant vs); cbn [bind] in E; [|discriminate]. injection E as <-.
    destruct H4 as (M2 & [H4 _] & H5). simpl in H5. rewrite H5. rewrite K in H4. apply insert_all in H4 as (new & -> & F). exact F.
  Qed.
  Lemma constraints_rows z l D D' k : (forall st, In st l -> exists acts, st = SAlterTable z acts /\ forall a, In a acts -> exists kk, a = AAddConstraint kk) -> script S l D D' -> Forall2 same_record (D k) (D' k).
  Proof.
    revert D. induction l as [|st l IH]; intros D I Hs.
    - rewrite (Hs k). apply forall2_refl. intros r n. reflexivity.
    - destruct Hs as (M & H1 & H2). eapply (forall2_trans same_record same_record same_record); [|idtac|apply IH; [intros; apply I; now right|exact H2]]; [intros r1 r2 r3 E1 E2 n; now rewrite E2, E1|].
      destruct (I st (or_introl eq_refl)) as (acts & -> & Ha). destruct H1 as [H1 H1']. destruct (decide (k = key_of z)) as [->|N]; [|rewrite (H1' k N); apply forall2_refl; intros r n; reflexivity].
      clear -H1 Ha. revert H1. generalize (D (key_of z)). induction acts as [|a acts IH]; intros rows H; simpl in H; [rewrite H; apply forall2_refl; intros r n; reflexivity|].
      destruct H as (mid & Hm & Hr). apply (forall2_trans same_record same_record same_record) with mid; [intros r1 r2 r3 E1 E2 n; now rewrite E2, E1| |apply IH; [intros; apply Ha; now right|exact Hr]].
      destruct (Ha a (or_introl eq_refl)) as (kk & ->). exact Hm.
  Qed.
  Lemma add_constraints_acts z st : In st (add_constraints d z) -> exists acts, st = SAlterTable (t_name z) acts /\ forall a, In a acts -> exists kk, a = AAddConstraint kk.
  Proof.
    unfold add_constraints. destruct (table_constraints z) as [|k0 ks] eqn:E; [intros []|]. rewrite <- E. clear E. intros H.
    assert (G : forall ks' st, In st (alter_table d (t_name z) (map AAddConstraint ks')) -> exists acts, st = SAlterTable (t_name z) acts /\ forall a, In a acts -> exists kk, a = AAddConstraint kk).
    { intros ks' st' I. apply alter_table_in in I as (acts & -> & Sub). exists acts. split; [reflexivity|]. intros a Ia. apply Sub in Ia. apply in_map_iff in Ia as (kk & <- & _). eauto. }
    destruct d; eauto. destruct H as [<-|[]]. eexists. split; [reflexivity|]. intros a Ia. apply in_map_iff in Ia as (kk & <- & _). eauto.
  Qed.

  Lemma created_rows c' l D D' : cat_create d c = Ok (c', l) -> script S (l ++ cat_add_constraints d c') D D' ->
    (forall n x, In n c -> In x (n_tables n) -> initial_rows x (D' (key_of (t_name x))))
    /\ forall k, (forall n x, In n c -> In x (n_tables n) -> key_of (t_name x) <> k) -> D' k = D k.
  Proof.
    intros H Hs. unfold cat_create in H. assert (N1 : List.NoDup (map n_name c)) by (apply NoDup_ListNoDup, (cw_names _ _ W)).
    assert (Cs := cat_sort_correct c N1). destruct (cat_sort c) as [c1|]; cbn [bind] in H; [|discriminate]. destruct Cs as [[Ps _] _].
    destruct (concat_res (create_objects d) c1) as [os|] eqn:B; cbn [bind] in H; [|discriminate]. injection H as <- <-.
    assert (Is : forall n, In n c1 <-> In n c) by (intros n; split; apply Permutation_in; [now symmetry|exact Ps]).
    assert (D1 : List.NoDup (map n_name c1)) by (eapply Permutation_NoDup; [apply Permutation_map; exact Ps|exact N1]).
    apply script_app in Hs as (M & Hs & Hc). apply script_app in Hs as (M0 & Hsch & Hs).
    assert (Sch : forall k, M0 k = D k).
    { intros k. eapply script_inert; [|exact Hsch]. intros st I. apply in_flat_map in I as (n & _ & I). unfold create_schema in I. destruct (n_name n); [destruct I|]. destruct I as [<-|[]]. exact Logic.I. }
    assert (Ob : forall n os st, create_objects d n = Ok os -> In st os -> inert st \/ exists z, In z (n_tables n) /\ stmt_target st = Some (t_name z)).
    { intros n os' st E I. unfold create_objects in E.
      match type of E with bind ?z _ = _ => destruct z as [cs|] eqn:B1; cbn [bind] in E; [|discriminate] end.
      match type of E with bind ?z _ = _ => destruct z as [ct|] eqn:B2; cbn [bind] in E; [|discriminate] end.
      injection E as <-. rewrite !in_app_iff in I. destruct I as [I|[I|I]].
      - left. apply in_map_iff in I as (x & <- & Ix). exact Logic.I.
      - left. destruct (concat_res_in _ _ _ _ B1 I) as (x & r & Ix & Hr & Ir). eapply create_struct_inert; eauto.
      - right. destruct (concat_res_in _ _ _ _ B2 I) as (x & r & Ix & Hr & Ir). destruct (create_table_in d x r st Hr Ir) as (T1 & _). eauto. }
    assert (Con : forall k l', (forall st, In st l' -> exists z, In st (add_constraints d z)) -> forall A A', script S l' A A' -> Forall2 same_record (A k) (A' k)).
    { intros k l'. induction l' as [|st l' IH]; intros Sub A A' HH; [rewrite (HH k); apply forall2_refl; intros r n; reflexivity|]. destruct HH as (Z & Z1 & Z2).
      eapply (forall2_trans same_record same_record same_record); [|idtac|apply IH; [intros; apply Sub; now right|exact Z2]]; [intros r1 r2 r3 E1 E2 n; now rewrite E2, E1|].
      destruct (Sub st (or_introl eq_refl)) as (z & Iz). apply (constraints_rows (t_name z) [st]).
      - intros st' [<-|[]]. now apply add_constraints_acts.
      - exists Z. split; [exact Z1|]. intros kk. reflexivity. }
    assert (Sub : forall st, In st (cat_add_constraints d c1) -> exists n z, In n c1 /\ In z (n_tables n) /\ In st (add_constraints d z)).
    { intros st I. unfold cat_add_constraints in I. apply in_flat_map in I as (n & In_ & I). unfold ns_add_constraints in I. apply in_flat_map in I as (z & Iz & I). exists n, z. auto. }
    split.
    - intros n x In_ Ix. apply (initial_same x (M (key_of (t_name x)))); [eapply Con; [|exact Hc]; intros st I; destruct (Sub st I) as (_ & z & _ & _ & Iz); eauto|].
      assert (In1 : In n c1) by now apply Is. apply in_split in In1 as (n1 & n2 & Ec). rewrite Ec in B, D1.
      apply concat_res_app in B as (o1 & o' & B1 & B' & ->). apply concat_res_cons in B' as (on & o2 & Bn & B2 & ->).
      apply script_app in Hs as (M1 & _ & Hs). apply script_app in Hs as (M2 & Hn & H2).
      assert (E2 : M (key_of (t_name x)) = M2 (key_of (t_name x))).
      { eapply script_other; [|exact H2]. intros st I. destruct (concat_res_in _ _ _ _ B2 I) as (m & r & Im & Hr & Ir). destruct (Ob m r st Hr Ir) as [Z|(z & Iz & T)]; [now left|right]. exists (t_name z). split; [exact T|].
        intros E. assert (Im' : In m c) by (apply Is; rewrite Ec; apply in_or_app; right; now right).
        assert (n_name m = n_name n) by (rewrite <- (key_scope d c m (t_name z) W Im' (names_table _ _ Iz)), E; apply (key_scope d c n _ W In_), names_table, Ix).
        rewrite map_app in D1. simpl in D1. apply NoDup_remove_2 in D1. apply D1. apply in_or_app. right. rewrite <- H. now apply in_map. }
      rewrite E2. clear E2 H2 Hc. unfold create_objects in Bn.
      match type of Bn with bind ?z _ = _ => destruct z as [cs|] eqn:C1; cbn [bind] in Bn; [|discriminate] end.
      match type of Bn with bind ?z _ = _ => destruct z as [ct|] eqn:C2; cbn [bind] in Bn; [|discriminate] end. injection Bn as <-.
      rewrite app_assoc in Hn. apply script_app in Hn as (M3 & _ & Hn).
      assert (Nt := table_keys_nodup d n (cw_ns _ _ W n In_)).
      apply in_split in Ix as (x1 & x2 & Ex). rewrite Ex in C2, Nt. apply concat_res_app in C2 as (t1 & t' & C2 & C3 & ->). apply concat_res_cons in C3 as (tx & t2 & C3 & C4 & ->).
      apply script_app in Hn as (M4 & _ & Hn). apply script_app in Hn as (M5 & Hx & H5).
      assert (E5 : M2 (key_of (t_name x)) = M5 (key_of (t_name x))).
      { eapply script_other; [|exact H5]. intros st I. destruct (concat_res_in _ _ _ _ C4 I) as (z & r & Iz & Hr & Ir). destruct (create_table_in d z r st Hr Ir) as (T1 & _). right. exists (t_name z). split; [exact T1|].
        intros E. rewrite map_app in Nt. simpl in Nt. apply NoDup_remove_2 in Nt. apply Nt. apply in_or_app. right. replace (t_key x) with (t_key z) by (unfold t_key, key_of in *; congruence). now apply in_map. }
      rewrite E5. eapply create_table_rows; eauto.
    - intros k Hk.
      assert (E1 : M k = M0 k).
      { eapply script_other; [|exact Hs]. intros st I. destruct (concat_res_in _ _ _ _ B I) as (m & r & Im & Hr & Ir). destruct (Ob m r st Hr Ir) as [Z|(z & Iz & T)]; [now left|right]. exists (t_name z). split; [exact T|]. apply (Hk m); [now apply Is|exact Iz]. }
      rewrite <- (Sch k), <- E1. eapply script_other; [|exact Hc]. intros st I. right. destruct (Sub st I) as (m & z & Im & Iz & Ia). destruct (add_constraints_in d z st Ia) as [T _]. exists (t_name z). split; [exact T|]. apply (Hk m); [now apply Is|exact Iz].
  Qed.
End Create.
