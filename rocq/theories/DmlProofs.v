(** Proofs about data manipulation statements (C23-C25, C48). *)
From Verif Require Import PyStr QuoteModel ObjectDict ObjectDictProofs Types Objects Ddl Dml RowSpec DmlSpec TablePredProofs.
From Coq Require Import Lia Arith.
Open Scope list_scope.

Lemma filter_res_ok {A} (f : A -> res bool) l r : filter_res f l = Ok r ->
  exists g, (forall x, In x l -> f x = Ok (g x)) /\ r = filter g l.
Proof.
  revert r. induction l as [|x l IH]; simpl; intros r H.
  - injection H as <-. exists (fun _ => true). split; [intros ? []|reflexivity].
  - destruct (f x) as [b|] eqn:E; simpl in H; [|discriminate].
    destruct (filter_res f l) as [ys|]; simpl in H; [|discriminate]. injection H as <-.
    destruct (IH ys eq_refl) as (g & Hg & ->).
    exists (fun y => match f y with Ok b => b | Err _ => false end).
    assert (Eq : filter g l = filter (fun y => match f y with Ok b0 => b0 | Err _ => false end) l).
    { clear - Hg. induction l as [|z l IH]; simpl; [reflexivity|]. rewrite (Hg z (or_introl eq_refl)).
      rewrite IH; [reflexivity|]. intros y I. apply Hg. right. exact I. }
    split.
    + intros y [<-|I]; [rewrite E; reflexivity|]. rewrite (Hg y I). reflexivity.
    + simpl. rewrite E, Eq. destruct b; reflexivity.
Qed.
Lemma filter_res_in {A} (f : A -> res bool) l r : filter_res f l = Ok r ->
  forall x, In x r <-> In x l /\ f x = Ok true.
Proof.
  intros H x. destruct (filter_res_ok f l r H) as (g & Hg & ->). rewrite filter_In. split.
  - intros [I G]. split; [exact I|]. rewrite (Hg x I), G. reflexivity.
  - intros [I E]. split; [exact I|]. rewrite (Hg x I) in E. injection E as ->. reflexivity.
Qed.
Lemma filter_res_total {A} (f : A -> res bool) l r : filter_res f l = Ok r -> forall x, In x l -> exists b, f x = Ok b.
Proof. intros H x I. destruct (filter_res_ok f l r H) as (g & Hg & _). eauto. Qed.

Lemma lookup_true t c : is_lookup_column t c = Ok true -> lookup_key t c.
Proof.
  intros H. apply is_lookup_column_ok in H. destruct H as (k & E & Hb).
  destruct (proj1 Hb eq_refl) as [->|U]; [left; exact E|right; exact U].
Qed.
Lemma lookup_iff t c b : is_lookup_column t c = Ok b -> (b = true <-> lookup_key t c).
Proof.
  intros H. split.
  - intros ->. apply lookup_true. exact H.
  - intros L. apply is_lookup_column_ok in H. destruct H as (k & E & Hb). apply Hb.
    destruct L as [L|L]; [left; congruence|right; exact L].
Qed.

(** ** INSERT *)
Lemma insert_stmt_ok t order s : insert_stmt t order = Ok s ->
  exists cs, get_columns t order = Ok cs /\ s = QInsert (t_name t) (names (not_identity cs)).
Proof.
  unfold insert_stmt. destruct (get_columns t order) as [cs|]; simpl; [|discriminate].
  intros [= <-]. eauto.
Qed.
Lemma insert_stmt_err t order : is_ok (insert_stmt t order) = is_ok (get_columns t order).
Proof. unfold insert_stmt. destruct (get_columns t order); reflexivity. Qed.

(** ** parameters *)
Section P.
  Context {V : Type} (veqb : V -> V -> bool) (Veq : forall x y, veqb x y = true <-> x = y).
  Notation value := (option V).
  Notation row := (string -> option V).

  Lemma eq_val_some (a b : value) : eq_val veqb a b = true <-> exists v, a = Some v /\ b = Some v.
  Proof.
    destruct a as [x|], b as [y|]; simpl; try (split; [discriminate|intros (v & A & B); congruence]).
    rewrite Veq. split; [intros ->; eauto|intros (v & [= ->] & [= ->]); reflexivity].
  Qed.

  Lemma param_some cols (rec : list value) c v : NoDup cols ->
    (param cols rec c = Some v <-> record_value cols rec c v).
  Proof.
    intros ND. revert rec. induction cols as [|k cols IH]; intros rec; simpl.
    - split; [discriminate|]. intros (i & E & _). destruct i; discriminate.
    - inversion ND as [|? ? NI ND']; subst. destruct rec as [|w rec].
      + split; [discriminate|]. intros (i & _ & E). destruct i; discriminate.
      + destruct (String.eqb k c) eqn:E.
        * apply String.eqb_eq in E. subst. split.
          -- intros [= ->]. exists 0. auto.
          -- intros (i & E1 & E2). destruct i as [|i]; simpl in *; [congruence|].
             exfalso. apply NI. eapply nth_error_In. exact E1.
        * apply String.eqb_neq in E. rewrite (IH ND'). split.
          -- intros (i & E1 & E2). exists (S i). auto.
          -- intros (i & E1 & E2). destruct i as [|i]; simpl in *; [congruence|]. exists i. auto.
  Qed.
  Lemma param_listed cols (rec : list value) c : length rec = length cols -> In c cols -> exists v, param cols rec c = Some v.
  Proof.
    revert rec. induction cols as [|k cols IH]; intros [|w rec] L I; simpl in *; try discriminate; [destruct I|].
    destruct (String.eqb k c) eqn:E; [eauto|]. apply String.eqb_neq in E.
    destruct I as [->|I]; [contradiction|]. apply IH; [lia|exact I].
  Qed.
  Lemma param_unlisted cols (rec : list value) c : ~ In c cols -> param cols rec c = None.
  Proof.
    revert rec. induction cols as [|k cols IH]; intros [|w rec] N; simpl in *; try reflexivity.
    destruct (String.eqb k c) eqn:E; [apply String.eqb_eq in E; subst; exfalso; apply N; auto|]. apply IH. auto.
  Qed.

  Lemma names_in cs c : In c (names cs) <-> exists k, In k cs /\ c_name k = c.
  Proof. unfold names. rewrite in_map_iff. split; intros (k & A & B); eauto. Qed.
  Lemma not_identity_in cs k : In k (not_identity cs) <-> In k cs /\ c_identity k = false.
  Proof. unfold not_identity. rewrite filter_In, Bool.negb_true_iff. tauto. Qed.
  Lemma plain_names cs c : In c (names (not_identity cs)) <-> plain cs c.
  Proof.
    rewrite names_in. unfold plain. split.
    - intros (k & I & E). apply not_identity_in in I. destruct I. eauto.
    - intros (k & I & E & F). exists k. rewrite not_identity_in. auto.
  Qed.

  (** ** MERGE *)
  Section Merge.
    Variables (d : dialect) (t : table) (order : option (list string)) (cs : list column) (s : dml).
    Hypothesis (Hd : d <> DPg /\ d <> DMySQL) (HC : get_columns t order = Ok cs) (HS : upsert_stmt d t order = Ok s).
    Hypothesis (ND : NoDup (names cs)).

    Lemma merge_shape : exists ms upd ins,
      s = QMerge (t_name t) (names cs) ms upd ins
      /\ (forall c, In c ms <-> In c (names cs) /\ lookup_key t c)
      /\ (match ins with None => forall c, ~ plain cs c | Some l => forall c, In c l <-> plain cs c end)
      /\ (match upd with None => forall c, ~ (plain cs c /\ ~ lookup_key t c)
                       | Some l => forall c, In c l <-> plain cs c /\ ~ lookup_key t c end).
    Proof.
      destruct Hd as [D1 D2]. unfold upsert_stmt in HS. rewrite HC in HS. simpl in HS.
      assert (E : (do ms <- match_columns t cs;
         let ins := not_identity cs in
         do upd <- filter_res (fun c => do b <- is_lookup_column t (c_name c); Ok (negb b)) ins;
         Ok (QMerge (t_name t) (names cs) (names ms) (opt_names upd) (opt_names ins))) = Ok s).
      { destruct d; try exact HS; contradiction. }
      clear HS. unfold match_columns in E.
      destruct (filter_res _ cs) as [ms|] eqn:E1; simpl in E; [|discriminate].
      destruct (filter_res _ (not_identity cs)) as [upd|] eqn:E2; simpl in E; [|discriminate].
      injection E as <-. exists (names ms), (opt_names upd), (opt_names (not_identity cs)). split; [reflexivity|].
      assert (L : forall k, In k cs -> exists b, is_lookup_column t (c_name k) = Ok b).
      { intros k I. exact (filter_res_total _ _ _ E1 k I). }
      assert (U : forall c, In c (names upd) <-> plain cs c /\ ~ lookup_key t c).
      { intros c. rewrite names_in. split.
        - intros (k & I & <-). apply (filter_res_in _ _ _ E2) in I. destruct I as [I F].
          destruct (is_lookup_column t (c_name k)) as [b|] eqn:Lk; simpl in F; [|discriminate]. injection F as F.
          destruct b; [discriminate|]. split; [apply plain_names; apply names_in; eauto|].
          intros X. apply (lookup_iff _ _ _ Lk) in X. discriminate.
        - intros [P NL]. apply plain_names, names_in in P. destruct P as (k & I & <-).
          exists k. split; [|reflexivity]. apply (filter_res_in _ _ _ E2). split; [exact I|].
          apply not_identity_in in I. destruct (L k (proj1 I)) as (b & Lk). rewrite Lk. simpl.
          destruct b; [|reflexivity]. exfalso. apply NL. apply lookup_true. exact Lk. }
      split; [|split].
      - intros c. rewrite !names_in. split.
        + intros (k & I & <-). apply (filter_res_in _ _ _ E1) in I. destruct I as [I F].
          split; [eauto|apply lookup_true; exact F].
        + intros [(k & I & <-) Lk]. exists k. split; [|reflexivity]. apply (filter_res_in _ _ _ E1). split; [exact I|].
          destruct (L k I) as (b & Hb). rewrite Hb. f_equal. apply (lookup_iff _ _ _ Hb). exact Lk.
      - pose proof (plain_names cs) as P. unfold opt_names. destruct (not_identity cs); [|exact P].
        intros c X. apply P in X. destruct X.
      - unfold opt_names. destruct upd; [|exact U]. intros c X. apply U in X. destruct X.
    Qed.

    Variables (uniq : list (list string)) (fill : list row -> string -> value).

    Lemma matched_hit ms (rec : list value) r :
      (forall c, In c ms <-> In c (names cs) /\ lookup_key t c) ->
      (matched veqb ms (names cs) rec r = true <-> hit t (names cs) rec r).
    Proof.
      intros HM. unfold matched. rewrite existsb_exists. split.
      - intros (c & I & E). destruct (param (names cs) rec c) as [v|] eqn:P; [|discriminate].
        apply eq_val_some in E. destruct E as (x & E1 & ->). apply param_some in P; [|exact ND].
        exists c, x. split; [apply HM; exact I|auto].
      - intros (c & v & L & R & E). exists c. split.
        + apply HM. split; [|exact L]. destruct R as (i & R & _). eapply nth_error_In. exact R.
        + apply param_some in R; [|exact ND]. rewrite R. apply eq_val_some. eauto.
    Qed.

    (** one record *)
    Lemma merge_step rows rec rows' :
      exec_dml veqb uniq fill s rows rec = Ok rows' ->
      (exists r, In r rows /\ hit t (names cs) rec r) /\
      Forall2 (fun r r' =>
        (hit t (names cs) rec r ->
           forall c, (plain cs c /\ ~ lookup_key t c -> record_value (names cs) rec c (r' c))
                  /\ (~ (plain cs c /\ ~ lookup_key t c) -> r' c = r c))
        /\ (~ hit t (names cs) rec r -> r' = r)) rows rows'
      \/
      (forall r, In r rows -> ~ hit t (names cs) rec r) /\
      exists r, rows' = rows ++ [r]
        /\ (forall c, plain cs c -> record_value (names cs) rec c (r c))
        /\ (forall c, ~ plain cs c -> r c = fill rows c).
    Proof.
      destruct merge_shape as (ms & upd & ins & -> & HM & HI & HU). simpl.
      destruct (Nat.eqb (length rec) (length (names cs))) eqn:L; simpl; [|discriminate]. apply Nat.eqb_eq in L.
      destruct ms as [|m ms0] eqn:Ems; [discriminate|]. rewrite <- Ems in *. clear Ems m ms0.
      destruct (existsb (matched veqb ms (names cs) rec) rows) eqn:X.
      - intros H.
        assert (H' : match upd with None => Ok rows | Some us => checked veqb uniq (map (fun r => if matched veqb ms (names cs) rec r
              then assign us (proposed fill rows (names cs) rec) r else r) rows) end = Ok rows')
          by (destruct upd, ins; try exact H; discriminate).
        clear H. left. split.
        { apply existsb_exists in X. destruct X as (r & I & M). exists r. split; [exact I|]. apply (matched_hit ms); auto. }
        destruct upd as [us|].
        + unfold checked in H'. destruct (unique_ok _ _ _); [|discriminate]. injection H' as <-.
          clear X. induction rows as [|r0 rows0 IH]; simpl.
          * constructor.
          * assert (G : forall R, Forall2 (fun r r' : row =>
        (hit t (names cs) rec r ->
           forall c, (plain cs c /\ ~ lookup_key t c -> record_value (names cs) rec c (r' c))
                  /\ (~ (plain cs c /\ ~ lookup_key t c) -> r' c = r c))
        /\ (~ hit t (names cs) rec r -> r' = r)) rows0 (map (fun r : string -> value =>
         if matched veqb ms (names cs) rec r then assign us (proposed fill R (names cs) rec) r else r) rows0)).
            { intros R. clear IH. induction rows0 as [|r1 rows1 IH]; simpl; constructor; [|exact IH].
              destruct (matched veqb ms (names cs) rec r1) eqn:M.
              - split; [|intros N; exfalso; apply N; apply (matched_hit ms); auto].
                intros _ c. unfold assign. destruct (str_in c us) eqn:S.
                + apply str_in_spec, HU in S. split; [|intros N; contradiction]. intros _.
                  unfold proposed. destruct (param_listed (names cs) rec c L) as (v & Pv).
                  { destruct S as [(k & I & E & _) _]. apply names_in. eauto. }
                  rewrite Pv. apply param_some; auto.
                + apply str_in_false in S. split; [|auto]. intros Y. exfalso. apply S. apply HU. exact Y.
              - split; [|auto]. intros Y. apply (matched_hit ms) in Y; [|exact HM]. congruence. }
            constructor; [|apply G].
            destruct (matched veqb ms (names cs) rec r0) eqn:M.
            -- split; [|intros N; exfalso; apply N; apply (matched_hit ms); auto].
               intros _ c. unfold assign. destruct (str_in c us) eqn:S.
               ++ apply str_in_spec, HU in S. split; [|intros N; contradiction]. intros _.
                  unfold proposed. destruct (param_listed (names cs) rec c L) as (v & Pv).
                  { destruct S as [(k & I & E & _) _]. apply names_in. eauto. }
                  rewrite Pv. apply param_some; auto.
               ++ apply str_in_false in S. split; [|auto]. intros Y. exfalso. apply S. apply HU. exact Y.
            -- split; [|auto]. intros Y. apply (matched_hit ms) in Y; [|exact HM]. congruence.
        + injection H' as <-. clear X. induction rows as [|r0 rows0 IH]; constructor; [|exact IH].
          split; [|auto]. intros _ c. split; [|auto]. intros Y. exfalso. exact (HU c Y).
      - intros H. right. split.
        { intros r I Hr. apply (matched_hit ms) in Hr; [|exact HM].
          assert (Y : existsb (matched veqb ms (names cs) rec) rows = true) by (apply existsb_exists; eauto). congruence. }
        destruct ins as [is|].
        + assert (H' : insert_row veqb uniq rows (fun c => if str_in c is then proposed fill rows (names cs) rec c else fill rows c) = Ok rows')
            by (destruct upd; exact H).
          unfold insert_row in H'. match type of H' with (if ?b then _ else _) = _ => destruct b; [discriminate|] end. injection H' as <-.
          eexists. split; [reflexivity|]. split; intros c Pc; simpl.
          * assert (S : str_in c is = true) by (apply str_in_spec; apply HI; exact Pc). rewrite S.
            unfold proposed. destruct (param_listed (names cs) rec c L) as (v & Pv).
            { destruct Pc as (k & I & E & _). apply names_in. eauto. }
            rewrite Pv. apply param_some; auto.
          * assert (S : str_in c is = false) by (apply str_in_false; intros Y; apply Pc; apply HI; exact Y). rewrite S. reflexivity.
        + destruct upd as [us|]; [|discriminate]. exfalso.
          (* without insertable columns there is nothing to update either *)
          assert (N : forall c, ~ In c us) by (intros c Y; apply HU in Y; exact (HI c (proj1 Y))).
          destruct us as [|u us]; [|apply (N u); left; reflexivity].
          clear - HU HS HI HC Hd. destruct Hd as [D1 D2].
          unfold upsert_stmt in HS. rewrite HC in HS. simpl in HS.
          destruct d; try contradiction; simpl in HS;
          destruct (match_columns t cs); simpl in HS; try discriminate;
          destruct (filter_res _ (not_identity cs)) as [[|u us]|]; simpl in HS; discriminate.
    Qed.
  End Merge.
End P.
