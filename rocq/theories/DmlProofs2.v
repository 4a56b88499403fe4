(** MERGE upsert of a batch: frame, idempotence, success (C24). *)
From Verif Require Import PyStr QuoteModel ObjectDict ObjectDictProofs Types Objects Ddl Dml RowSpec DmlSpec TablePredProofs DmlProofs.
From Coq Require Import Lia Arith.
Open Scope list_scope.

Section P.
  Context {V : Type} (veqb : V -> V -> bool) (Veq : forall x y, veqb x y = true <-> x = y).
  Notation value := (option V).
  Notation row := (string -> option V).

  Lemma same_row_refl (r : row) : same_row r r. Proof. intros c. reflexivity. Qed.
  Lemma same_row_trans (a b c : row) : same_row a b -> same_row b c -> same_row a c.
  Proof. intros H K x. rewrite (H x). apply K. Qed.
  Lemma same_row_sym (a b : row) : same_row a b -> same_row b a.
  Proof. intros H x. symmetry. apply H. Qed.
  Lemma same_rows_refl (R : list row) : same_rows R R.
  Proof. induction R; constructor; [apply same_row_refl|assumption]. Qed.
  Lemma same_rows_trans (a b c : list row) : same_rows a b -> same_rows b c -> same_rows a c.
  Proof.
    intros H. revert c. induction H as [|x y a b E H IH]; intros c K; inversion K; subst; constructor.
    - eapply same_row_trans; eassumption.
    - apply IH. assumption.
  Qed.
  Lemma same_rows_sym (a b : list row) : same_rows a b -> same_rows b a.
  Proof. induction 1; constructor; [apply same_row_sym; assumption|assumption]. Qed.
  Lemma same_rows_map (f g : row -> row) R S : (forall r s, same_row r s -> same_row (f r) (g s)) ->
    same_rows R S -> same_rows (map f R) (map g S).
  Proof. intros H. induction 1; simpl; constructor; auto. Qed.
  Lemma same_rows_app (a b c d : list row) : same_rows a b -> same_rows c d -> same_rows (a ++ c) (b ++ d).
  Proof. intros H K. induction H; simpl; [exact K|constructor; auto]. Qed.
  Lemma same_rows_in_l (a b : list row) r : same_rows a b -> In r a -> exists r', In r' b /\ same_row r r'.
  Proof.
    induction 1 as [|x y a b E H IH]; intros I; [destruct I|]. destruct I as [<-|I]; [exists y; simpl; auto|].
    destruct (IH I) as (r' & I' & E'). exists r'. simpl. auto.
  Qed.

  Lemma same_key_ext (r r' s s' : row) k : (forall c, In c k -> r c = r' c) -> (forall c, In c k -> s c = s' c) ->
    same_key veqb r s k = same_key veqb r' s' k.
  Proof.
    intros H K. unfold same_key. induction k as [|c k IH]; simpl; [reflexivity|].
    rewrite (H c), (K c) by (left; reflexivity). f_equal. apply IH; intros x I; [apply H|apply K]; right; exact I.
  Qed.
  Lemma collide_ext uniq (r r' s s' : row) : (forall c, In c (concat uniq) -> r c = r' c) -> (forall c, In c (concat uniq) -> s c = s' c) ->
    collide veqb uniq r s = collide veqb uniq r' s'.
  Proof.
    intros H K. unfold collide. induction uniq as [|k uniq IH]; simpl; [reflexivity|].
    rewrite (same_key_ext r r' s s' k).
    - f_equal. apply IH; intros c I; [apply H|apply K]; simpl; apply in_or_app; right; exact I.
    - intros c I. apply H. simpl. apply in_or_app. left. exact I.
    - intros c I. apply K. simpl. apply in_or_app. left. exact I.
  Qed.
  Lemma unique_ok_ext uniq (R S : list row) :
    Forall2 (fun r s => forall c, In c (concat uniq) -> r c = s c) R S -> unique_ok veqb uniq R = unique_ok veqb uniq S.
  Proof.
    induction 1 as [|r s R S E H IH]; simpl; [reflexivity|]. rewrite IH. f_equal. f_equal.
    clear IH. induction H as [|x y R S F H IH]; simpl; [reflexivity|]. rewrite IH. f_equal.
    apply collide_ext; assumption.
  Qed.
  Lemma unique_ok_app uniq (R : list row) n : unique_ok veqb uniq (R ++ [n]) = unique_ok veqb uniq R && negb (existsb (fun r => collide veqb uniq r n) R).
  Proof.
    induction R as [|r R IH]; simpl; [reflexivity|]. rewrite IH, existsb_app. simpl. rewrite Bool.orb_false_r.
    change (existsb (collide veqb uniq r) R) with (@existsb (RowSpec.row (V:=V)) (collide veqb uniq r) R).
    generalize (@existsb (RowSpec.row (V:=V)) (fun r0 => collide veqb uniq r0 n) R), (unique_ok veqb uniq R), (collide veqb uniq r n), (@existsb (RowSpec.row (V:=V)) (collide veqb uniq r) R).
    intros [] [] [] []; reflexivity.
  Qed.
  Lemma eq_val_sym (a b : value) : eq_val veqb a b = eq_val veqb b a.
  Proof.
    apply Bool.eq_true_iff_eq. rewrite !(eq_val_some veqb Veq). split; intros (v & A & B); eauto.
  Qed.
  Lemma collide_sym uniq (r s : row) : collide veqb uniq r s = collide veqb uniq s r.
  Proof.
    unfold collide, same_key. induction uniq as [|k uniq IH]; simpl; [reflexivity|]. rewrite IH. f_equal.
    induction k as [|c k IHk]; simpl; [reflexivity|]. rewrite IHk, eq_val_sym. reflexivity.
  Qed.



  (** ** Upserts in general: a record either updates the rows it hits, column by column, or adds a row *)
  Section Gen.
    Variables (us : list string) (hits : list value -> row -> bool) (src : list value -> row)
              (exec : list row -> list value -> res (list row)) (fresh : list value -> row -> Prop)
              (keyed : list value -> Prop).
    Hypothesis hits_ext : forall rec (r r' : row), (forall c, ~ In c us -> r c = r' c) -> hits rec r = hits rec r'.
    Hypothesis fresh_hit : forall rec n, keyed rec -> fresh rec n -> hits rec n = true.
    Hypothesis fresh_src : forall rec n c, fresh rec n -> In c us -> n c = src rec c.
    Definition upd_row (rec : list value) (r : row) : row :=
      fun c => if hits rec r && str_in c us then src rec c else r c.
    Definition Us (p : list (list value)) (r : row) : row := fold_left (fun r x => upd_row x r) p r.
    Hypothesis exec_step : forall rows rec rows', exec rows rec = Ok rows' ->
      (existsb (hits rec) rows = true /\ same_rows rows' (map (upd_row rec) rows)) \/
      (existsb (hits rec) rows = false /\ exists n, rows' = rows ++ [n] /\ fresh rec n).
    Fixpoint many (rows : list row) (recs : list (list value)) : res (list row) :=
      match recs with [] => Ok rows | r :: rest => do rows' <- exec rows r; many rows' rest end.

    Lemma U_keeps rec r c : ~ In c us -> upd_row rec r c = r c.
    Proof. intros N. unfold upd_row. apply str_in_false in N. rewrite N, Bool.andb_false_r. reflexivity. Qed.
    Lemma U_hits rec x r : hits x (upd_row rec r) = hits x r.
    Proof. apply hits_ext. intros c I. apply U_keeps. exact I. Qed.
    Lemma hits_same rec r r' : same_row r r' -> hits rec r = hits rec r'.
    Proof. intros H. apply hits_ext. intros c _. apply H. Qed.
    Lemma U_ext rec r r' : same_row r r' -> same_row (upd_row rec r) (upd_row rec r').
    Proof. intros H c. unfold upd_row. rewrite (hits_same rec r r' H). destruct (_ && _); [reflexivity|apply H]. Qed.
    Lemma Us_keeps p : forall r c, ~ In c us -> Us p r c = r c.
    Proof.
      induction p as [|x p IH]; intros r c N; [reflexivity|]. change (Us (x :: p) r) with (Us p (upd_row x r)).
      rewrite IH by exact N. apply U_keeps. exact N.
    Qed.
    Lemma Us_hits p x r : hits x (Us p r) = hits x r.
    Proof. apply hits_ext. intros c I. apply Us_keeps. exact I. Qed.
    Lemma Us_ext p : forall r r', same_row r r' -> same_row (Us p r) (Us p r').
    Proof.
      induction p as [|x p IH]; intros r r' H; [exact H|]. change (Us (x :: p) ?z) with (Us p (upd_row x z)).
      apply IH. apply U_ext. exact H.
    Qed.
    Lemma Us_snoc p x r : Us (p ++ [x]) r = upd_row x (Us p r).
    Proof. unfold Us. rewrite fold_left_app. reflexivity. Qed.

    (** every record seen so far changes nothing when applied again, in order *)
    Definition stable (p : list (list value)) (rows : list row) : Prop :=
      (forall r, In r rows -> same_row (Us p r) r) /\
      (forall x, In x p -> exists r, In r rows /\ hits x r = true).

    Lemma updated_hits rec x rows rows' r : same_rows rows' (map (upd_row rec) rows) -> In r rows -> hits x r = true ->
      exists r', In r' rows' /\ hits x r' = true.
    Proof.
      intros S Ir Hr. assert (Iu : In (upd_row rec r) (map (upd_row rec) rows)) by (apply in_map; exact Ir).
      destruct (same_rows_in_l _ _ _ (same_rows_sym _ _ S) Iu) as (r' & Ir' & Er'). exists r'. split; [exact Ir'|].
      rewrite <- (hits_same x _ _ Er'), U_hits. exact Hr.
    Qed.
    Lemma no_hit rec rows r : existsb (hits rec) rows = false -> In r rows -> hits rec r = false.
    Proof.
      intros X I. destruct (hits rec r) eqn:H; [|reflexivity].
      assert (Y : existsb (hits rec) rows = true) by (apply existsb_exists; eauto). congruence.
    Qed.

    Lemma stable_step p rows rec rows' : keyed rec -> stable p rows -> exec rows rec = Ok rows' -> stable (p ++ [rec]) rows'.
    Proof.
      intros K [St Hit] E. apply exec_step in E. destruct E as [[X S]|[X (n & -> & En)]].
      - split.
        + intros r' I. destruct (same_rows_in_l _ _ _ S I) as (u & Iu & Eu). apply in_map_iff in Iu. destruct Iu as (r & <- & Ir).
          rewrite Us_snoc. eapply same_row_trans; [apply U_ext, Us_ext; exact Eu|]. eapply same_row_trans; [|apply same_row_sym; exact Eu].
          intros c. unfold upd_row at 1. rewrite Us_hits, U_hits. destruct (hits rec r) eqn:H; simpl.
          * destruct (str_in c us) eqn:Ec.
            -- unfold upd_row. rewrite H, Ec. reflexivity.
            -- apply str_in_false in Ec. rewrite Us_keeps by exact Ec. reflexivity.
          * assert (Er : same_row (upd_row rec r) r) by (intros k; unfold upd_row; rewrite H; reflexivity).
            rewrite (Us_ext p _ _ Er c), (St r Ir c). symmetry. apply Er.
        + intros x I. assert (J : exists r, In r rows /\ hits x r = true).
          { apply in_app_or in I. destruct I as [I|[<-|[]]]; [auto|]. apply existsb_exists in X. exact X. }
          destruct J as (r & Ir & Hr). eapply updated_hits; eassumption.
      - split.
        + intros r I. rewrite Us_snoc. apply in_app_or in I. destruct I as [I|[<-|[]]].
          * intros c. unfold upd_row. rewrite Us_hits, (no_hit rec rows r X I). simpl. apply (St r I).
          * intros c. unfold upd_row. rewrite Us_hits, (fresh_hit rec n K En). simpl.
            destruct (str_in c us) eqn:Ec.
            -- apply str_in_spec in Ec. symmetry. apply fresh_src; assumption.
            -- apply str_in_false in Ec. apply Us_keeps. exact Ec.
        + intros x I. apply in_app_or in I. destruct I as [I|[<-|[]]].
          * destruct (Hit x I) as (r & Ir & Hr). exists r. split; [apply in_or_app; auto|exact Hr].
          * exists n. split; [apply in_or_app; right; left; reflexivity|]. exact (fresh_hit rec n K En).
    Qed.

    Lemma stable_many recs : forall p rows rows', (forall x, In x recs -> keyed x) -> stable p rows ->
      many rows recs = Ok rows' -> stable (p ++ recs) rows'.
    Proof.
      induction recs as [|x recs IH]; intros p rows rows' K S E; cbn [many] in E.
      - injection E as <-. rewrite app_nil_r. exact S.
      - destruct (exec rows x) as [r1|] eqn:E1; cbn [bind] in E; [|discriminate].
        change (x :: recs) with ([x] ++ recs). rewrite app_assoc.
        eapply IH; [intros y I; apply K; right; exact I| |exact E].
        eapply stable_step; [apply K; left; reflexivity|exact S|exact E1].
    Qed.

    (** when every record hits some row, the batch acts row by row *)
    Lemma many_updates recs : forall rows rows',
      (forall x, In x recs -> exists r, In r rows /\ hits x r = true) ->
      many rows recs = Ok rows' -> same_rows rows' (map (Us recs) rows).
    Proof.
      induction recs as [|x recs IH]; intros rows rows' H E; cbn [many] in E.
      - injection E as <-. unfold Us. simpl. rewrite map_id. apply same_rows_refl.
      - destruct (exec rows x) as [r1|] eqn:E1; cbn [bind] in E; [|discriminate].
        apply exec_step in E1. destruct E1 as [[X S]|[X _]].
        + assert (H1 : forall y, In y recs -> exists r, In r r1 /\ hits y r = true).
          { intros y I. destruct (H y (or_intror I)) as (r & Ir & Hr). eapply updated_hits; eassumption. }
          eapply same_rows_trans; [apply (IH r1 rows' H1 E)|].
          eapply same_rows_trans; [apply (same_rows_map (Us recs) (Us recs)); [apply Us_ext|exact S]|].
          rewrite map_map. change (fun r => Us recs (upd_row x r)) with (Us (x :: recs)). apply same_rows_refl.
        + destruct (H x (or_introl eq_refl)) as (r & Ir & Hr). rewrite (no_hit x rows r X Ir) in Hr. discriminate.
    Qed.

    Lemma idempotent recs rows rows1 rows2 : (forall x, In x recs -> keyed x) ->
      many rows recs = Ok rows1 -> many rows1 recs = Ok rows2 -> same_rows rows2 rows1.
    Proof.
      intros K E1 E2. assert (S : stable [] rows) by (split; [intros r _; apply same_row_refl|intros x []]).
      pose proof (stable_many recs [] rows rows1 K S E1) as [St Hit]. simpl in *.
      eapply same_rows_trans; [apply (many_updates recs rows1 rows2 Hit E2)|].
      clear - St. induction rows1 as [|r R IH]; simpl; constructor; [apply St; left; reflexivity|].
      apply IH. intros x I. apply St. right. exact I.
    Qed.

    (** frame: rows stay in place, other columns and unhit rows are unchanged, new rows come after *)
    Lemma frame recs : forall rows rows', many rows recs = Ok rows' ->
      exists old new, rows' = old ++ new /\
        Forall2 (fun r r' => (forall c, ~ In c us -> r' c = r c)
                          /\ ((forall x, In x recs -> hits x r = false) -> same_row r' r)) rows old.
    Proof.
      induction recs as [|x recs IH]; intros rows rows' E; cbn [many] in E.
      - injection E as <-. exists rows, []. rewrite app_nil_r. split; [reflexivity|].
        induction rows; constructor; [|assumption]. split; [reflexivity|intros _; apply same_row_refl].
      - destruct (exec rows x) as [r1|] eqn:E1; cbn [bind] in E; [|discriminate].
        destruct (IH r1 rows' E) as (old & new & -> & F). apply exec_step in E1. destruct E1 as [[X S]|[X (n & -> & En)]].
        + exists old, new. split; [reflexivity|]. clear - S F hits_ext. revert r1 old S F. induction rows as [|r rows IHr]; intros r1 old S F.
          * inversion S; subst. inversion F; subst. constructor.
          * simpl in S. inversion S as [|u ? R1 ? Eu S']; subst. inversion F as [|? o ? old' [Fo1 Fo2] F']; subst.
            constructor; [|apply (IHr R1); assumption]. split.
            -- intros c N. rewrite (Fo1 c N), (Eu c). apply U_keeps. exact N.
            -- intros H. assert (Er : same_row u r).
               { intros c. rewrite (Eu c). unfold upd_row. rewrite (H x (or_introl eq_refl)). reflexivity. }
               eapply same_row_trans; [apply Fo2|exact Er]. intros y I.
               rewrite (hits_same y u r Er). apply H. right. exact I.
        + apply Forall2_app_inv_l in F. destruct F as (o1 & o2 & F1 & F2 & ->).
          exists o1, (o2 ++ new). rewrite app_assoc. split; [reflexivity|].
          clear - F1. induction F1 as [|r r' R R' [A B] F1 IHF]; constructor; [|exact IHF]. split; [exact A|]. intros H. apply B.
          intros y I. apply H. right. exact I.
    Qed.
    (** after the batch, every record is represented, and a row holds the values of the last record that hits it *)
    Lemma covered_step p rows rec rows' : keyed rec ->
      (forall p1 x p2, p = p1 ++ x :: p2 ->
         (exists r, In r rows /\ hits x r = true) /\
         (forall r, In r rows -> hits x r = true -> (forall y, In y p2 -> hits y r = false) -> forall c, In c us -> r c = src x c)) ->
      exec rows rec = Ok rows' ->
      forall p1 x p2, p ++ [rec] = p1 ++ x :: p2 ->
         (exists r, In r rows' /\ hits x r = true) /\
         (forall r, In r rows' -> hits x r = true -> (forall y, In y p2 -> hits y r = false) -> forall c, In c us -> r c = src x c).
    Proof.
      intros K H E p1 x p2 Ep. apply exec_step in E.
      assert (Cs : (p2 = [] /\ p = p1 /\ x = rec) \/ exists q, p2 = q ++ [rec] /\ p = p1 ++ x :: q).
      { destruct p2 as [|y p2] using rev_ind; [left|right; clear IHp2].
        - apply app_inj_tail in Ep. destruct Ep; auto.
        - exists p2. change (p1 ++ x :: p2 ++ [y]) with (p1 ++ (x :: p2) ++ [y]) in Ep. rewrite app_assoc in Ep.
          apply app_inj_tail in Ep. destruct Ep as [-> ->]. auto. }
      destruct Cs as [(-> & -> & ->)|(q & -> & ->)].
      - destruct E as [[X S]|[X (n & -> & En)]].
        + split.
          * apply existsb_exists in X. destruct X as (r & Ir & Hr). eapply updated_hits; eassumption.
          * intros r I Hr _ c Ic. destruct (same_rows_in_l _ _ _ S I) as (u & Iu & Eu). apply in_map_iff in Iu. destruct Iu as (r0 & <- & Ir).
            rewrite (Eu c). unfold upd_row. rewrite (hits_same _ _ _ Eu), U_hits in Hr. apply str_in_spec in Ic. rewrite Hr, Ic. reflexivity.
        + split.
          * exists n. split; [apply in_or_app; right; left; reflexivity|]. exact (fresh_hit rec n K En).
          * intros r I Hr _ c Ic. apply in_app_or in I. destruct I as [I|[<-|[]]].
            -- rewrite (no_hit rec rows r X I) in Hr. discriminate.
            -- apply fresh_src; assumption.
      - destruct (H p1 x q eq_refl) as [(r & Ir & Hr) HV].
        assert (Lst : In rec (q ++ [rec])) by (apply in_or_app; right; left; reflexivity).
        assert (Sub : forall y, In y q -> In y (q ++ [rec])) by (intros y I; apply in_or_app; left; exact I).
        destruct E as [[X S]|[X (n & -> & En)]].
        + split; [eapply updated_hits; eassumption|].
          intros r' I Hr' N c Ic. destruct (same_rows_in_l _ _ _ S I) as (u & Iu & Eu). apply in_map_iff in Iu. destruct Iu as (r0 & <- & Ir0).
          assert (HH : forall y, hits y r' = hits y r0) by (intros y; rewrite (hits_same _ _ _ Eu), U_hits; reflexivity).
          rewrite (Eu c). unfold upd_row. rewrite <- HH, (N rec Lst). simpl. apply HV; auto.
          * rewrite <- HH. exact Hr'.
          * intros y Iy. rewrite <- HH. apply N. auto.
        + split; [exists r; split; [apply in_or_app; left; exact Ir|exact Hr]|].
          intros r' I Hr' N c Ic. apply in_app_or in I. destruct I as [I|[<-|[]]].
          * apply HV; auto.
          * pose proof (fresh_hit rec n K En) as Z. rewrite (N rec Lst) in Z. discriminate.
    Qed.
    Lemma covered_many recs : forall p rows rows', (forall x, In x recs -> keyed x) ->
      (forall p1 x p2, p = p1 ++ x :: p2 ->
         (exists r, In r rows /\ hits x r = true) /\
         (forall r, In r rows -> hits x r = true -> (forall y, In y p2 -> hits y r = false) -> forall c, In c us -> r c = src x c)) ->
      many rows recs = Ok rows' ->
      forall p1 x p2, p ++ recs = p1 ++ x :: p2 ->
         (exists r, In r rows' /\ hits x r = true) /\
         (forall r, In r rows' -> hits x r = true -> (forall y, In y p2 -> hits y r = false) -> forall c, In c us -> r c = src x c).
    Proof.
      induction recs as [|x recs IH]; intros p rows rows' K H E; cbn [many] in E.
      - injection E as <-. rewrite app_nil_r. exact H.
      - destruct (exec rows x) as [r1|] eqn:E1; cbn [bind] in E; [|discriminate].
        change (x :: recs) with ([x] ++ recs). rewrite app_assoc.
        eapply IH; [intros y I; apply K; right; exact I| |exact E].
        eapply covered_step; [apply K; left; reflexivity|exact H|exact E1].
    Qed.
    Lemma covered recs rows rows' : (forall x, In x recs -> keyed x) -> many rows recs = Ok rows' ->
      forall p1 x p2, recs = p1 ++ x :: p2 ->
         (exists r, In r rows' /\ hits x r = true) /\
         (forall r, In r rows' -> hits x r = true -> (forall y, In y p2 -> hits y r = false) -> forall c, In c us -> r c = src x c).
    Proof.
      intros K E. apply (covered_many recs [] rows rows' K); [|exact E]. intros [|? ?] ? ? Z; discriminate.
    Qed.
  End Gen.

  Lemma many_ext exec exec' rows recs : (forall R x, exec R x = exec' R x) -> many exec rows recs = many exec' rows recs.
  Proof. intros H. revert rows. induction recs as [|x recs IH]; intros rows; simpl; [reflexivity|]. rewrite H. destruct (exec' rows x); simpl; [apply IH|reflexivity]. Qed.
  Lemma exec_many_many uniq fill s rows recs : exec_many veqb uniq fill s rows recs = many (exec_dml veqb uniq fill s) rows recs.
  Proof. revert rows. induction recs as [|x recs IH]; intros rows; cbn [exec_many many]; [reflexivity|]. destruct (exec_dml _ _ _ _ _ _); cbn [bind]; [apply IH|reflexivity]. Qed.

  Lemma unique_map us hits src uniq rec rows rows' : (forall c, In c us -> ~ In c (concat uniq)) ->
    same_rows rows' (map (upd_row us hits src rec) rows) -> unique_ok veqb uniq rows' = unique_ok veqb uniq rows.
  Proof.
    intros Hk S. apply unique_ok_ext. clear - S Hk.
    revert rows' S. induction rows as [|r rows IH]; intros rows' S; inversion S; subst; constructor.
    - intros c I. rewrite (H2 c). apply U_keeps. intros J. exact (Hk c J I).
    - apply IH. assumption.
  Qed.
  Lemma unique_snoc uniq rows n : unique_ok veqb uniq rows = true -> existsb (collide veqb uniq n) rows = false ->
    unique_ok veqb uniq (rows ++ [n]) = true.
  Proof.
    intros Q Cn. rewrite unique_ok_app, Q. simpl.
    assert (Y : existsb (fun r => collide veqb uniq r n) rows = existsb (collide veqb uniq n) rows).
    { clear - Veq. induction rows as [|r rows IH]; simpl; [reflexivity|]. rewrite IH, collide_sym. reflexivity. }
    rewrite Y, Cn. reflexivity.
  Qed.

  Section Merge.
    Variables (cols ms us ins : list string) (q : qid) (upd : option (list string)).
    Hypothesis (ND : NoDup cols) (Hupd : upd = None /\ us = [] \/ upd = Some us).
    Hypothesis (Hms : forall c, In c ms -> In c cols) (Hus : forall c, In c us -> In c ins) (Hins : forall c, In c ins -> In c cols).
    Hypothesis (Hdis : forall c, In c us -> ~ In c ms).
    Variables (uniq : list (list string)) (fill : list row -> string -> value).
    Notation s := (QMerge q cols ms upd (Some ins)).
    Notation exec := (exec_dml veqb uniq fill s).
    Notation hits := (matched veqb ms cols).

    Definition src (rec : list value) : row := fun c => match param cols rec c with Some v => v | None => None end.
    Notation U := (upd_row us hits src).

    Lemma m_hits_ext rec (r r' : row) : (forall c, ~ In c us -> r c = r' c) -> hits rec r = hits rec r'.
    Proof.
      intros H0. assert (H : forall c, In c ms -> r c = r' c).
      { intros c I. apply H0. intros J. exact (Hdis c J I). }
      unfold matched. clear - H. induction ms as [|c m IH]; simpl; [reflexivity|].
      rewrite (H c) by (left; reflexivity). f_equal. apply IH. intros x I. apply H. right. exact I.
    Qed.
    Definition m_fresh (rec : list value) (n : row) : Prop := forall c, In c ins -> n c = src rec c.

    Lemma exec_spec rows rec :
      exec rows rec =
      if negb (Nat.eqb (length rec) (length cols)) then Err "ParameterCount"
      else match ms with [] => Err "SyntaxError" | _ => 
        if existsb (hits rec) rows then
          match upd with None => Ok rows | Some us => checked veqb uniq (map (fun r => if hits rec r then assign us (proposed fill rows cols rec) r else r) rows) end
        else insert_row veqb uniq rows (fun c => if str_in c ins then proposed fill rows cols rec c else fill rows c) end.
    Proof.
      simpl. destruct (negb _); [reflexivity|]. destruct ms; [reflexivity|]. destruct upd; reflexivity.
    Qed.

    Lemma proposed_src rows rec c : length rec = length cols -> In c cols -> proposed fill rows cols rec c = src rec c.
    Proof.
      intros L I. unfold proposed, src. destruct (param_listed cols rec c L I) as (v & ->). reflexivity.
    Qed.

    Lemma assign_U rows rec r : length rec = length cols ->
      same_row (if hits rec r then assign us (proposed fill rows cols rec) r else r) (U rec r).
    Proof.
      intros L c. unfold upd_row. destruct (hits rec r); simpl; [|reflexivity]. unfold assign.
      destruct (str_in c us) eqn:E; [|reflexivity]. apply str_in_spec in E. apply proposed_src; auto.
    Qed.

    Lemma exec_step2 rows rec rows' : exec rows rec = Ok rows' ->
      length rec = length cols /\
      ((existsb (hits rec) rows = true /\ same_rows rows' (map (U rec) rows)) \/
       (existsb (hits rec) rows = false /\ exists n, rows' = rows ++ [n] /\ m_fresh rec n
          /\ existsb (collide veqb uniq n) rows = false)).
    Proof.
      rewrite exec_spec. destruct (Nat.eqb (length rec) (length cols)) eqn:L; simpl; [|discriminate].
      apply Nat.eqb_eq in L. intros H. split; [exact L|]. destruct ms as [|m0 ms0] eqn:Em; [discriminate|]. rewrite <- Em in *.
      destruct (existsb (hits rec) rows) eqn:X.
      - left. split; [reflexivity|]. destruct Hupd as [[-> Eu]| ->].
        + injection H as <-. clear X. induction rows as [|r rows IH]; simpl; constructor; [|exact IH].
          intros c. symmetry. apply U_keeps. rewrite Eu. intros [].
        + unfold checked in H. destruct (unique_ok _ _ _); [|discriminate]. injection H as <-.
          assert (G : forall R0, same_rows (map (fun r => if hits rec r then assign us (proposed fill R0 cols rec) r else r) rows) (map (U rec) rows)).
          { intros R0. clear X. induction rows as [|r rows IH]; simpl; constructor; [apply assign_U; exact L|exact IH]. }
          apply G.
      - right. split; [reflexivity|]. unfold insert_row in H.
        match type of H with (if ?b then _ else _) = _ => destruct b eqn:Cb; [discriminate|] end. injection H as <-.
        eexists. split; [reflexivity|]. split; [|exact Cb]. intros c I.
        apply str_in_spec in I. rewrite I. apply str_in_spec in I. apply proposed_src; auto.
    Qed.
    Lemma m_exec_step rows rec rows' : exec rows rec = Ok rows' ->
      ((existsb (hits rec) rows = true /\ same_rows rows' (map (U rec) rows)) \/
       (existsb (hits rec) rows = false /\ exists n, rows' = rows ++ [n] /\ m_fresh rec n)).
    Proof. intros E. apply exec_step2 in E. destruct E as [_ [E|[X (n & E & F & _)]]]; [left; exact E|right; eauto]. Qed.

    (** a record has a non-NULL value in an identifying column that is written on insertion *)
    Definition m_keyed (rec : list value) : Prop := exists c, In c ms /\ In c ins /\ src rec c <> None.

    Lemma m_fresh_hit rec n : m_keyed rec -> m_fresh rec n -> hits rec n = true.
    Proof.
      intros (c & I & J & K) E. unfold matched. apply existsb_exists. exists c. split; [exact I|].
      rewrite (E c J). unfold src in *. destruct (param cols rec c) as [v|]; [|contradiction].
      destruct v as [v|]; [|contradiction]. apply (eq_val_some veqb Veq). eauto.
    Qed.
    Lemma m_fresh_src rec n c : m_fresh rec n -> In c us -> n c = src rec c.
    Proof. intros F I. apply F. apply Hus. exact I. Qed.

    Lemma m_idempotent recs rows rows1 rows2 : (forall x, In x recs -> m_keyed x) ->
      exec_many veqb uniq fill s rows recs = Ok rows1 -> exec_many veqb uniq fill s rows1 recs = Ok rows2 -> same_rows rows2 rows1.
    Proof.
      rewrite !exec_many_many. exact (idempotent us hits src exec m_fresh m_keyed m_hits_ext m_fresh_hit m_fresh_src m_exec_step recs rows rows1 rows2).
    Qed.
    Lemma m_covered recs rows rows' : (forall x, In x recs -> m_keyed x) -> exec_many veqb uniq fill s rows recs = Ok rows' ->
      forall p1 x p2, recs = p1 ++ x :: p2 ->
         (exists r, In r rows' /\ hits x r = true) /\
         (forall r, In r rows' -> hits x r = true -> (forall y, In y p2 -> hits y r = false) -> forall c, In c us -> r c = src x c).
    Proof. rewrite exec_many_many. exact (covered us hits src exec m_fresh m_keyed m_hits_ext m_fresh_hit m_fresh_src m_exec_step recs rows rows'). Qed.
    Lemma m_frame recs rows rows' : exec_many veqb uniq fill s rows recs = Ok rows' ->
      exists old new, rows' = old ++ new /\
        Forall2 (fun r r' => (forall c, ~ In c us -> r' c = r c)
                          /\ ((forall x, In x recs -> hits x r = false) -> same_row r' r)) rows old.
    Proof. rewrite exec_many_many. exact (frame us hits src exec m_fresh m_hits_ext m_exec_step recs rows rows'). Qed.

    (** uniqueness is preserved *)
    Lemma exec_unique rows rec rows' : (forall c, In c us -> ~ In c (concat uniq)) -> unique_ok veqb uniq rows = true ->
      exec rows rec = Ok rows' -> unique_ok veqb uniq rows' = true.
    Proof.
      intros Hk Q E. apply exec_step2 in E. destruct E as [L [[X S]|[X (n & -> & En & Cn)]]].
      - rewrite (unique_map us hits src uniq rec rows rows' Hk S). exact Q.
      - apply unique_snoc; assumption.
    Qed.
    (** when every unique key consists of one matched column written on insertion, nothing can fail *)
    Lemma exec_succeeds rows rec : ms <> [] -> length rec = length cols -> unique_ok veqb uniq rows = true ->
      (forall k, In k uniq -> exists c, k = [c] /\ In c ms /\ In c ins) ->
      exists rows', exec rows rec = Ok rows'.
    Proof.
      intros Hm L Q HK. rewrite exec_spec. rewrite L, Nat.eqb_refl. simpl. destruct ms as [|m0 ms0] eqn:Em; [contradiction|]. rewrite <- Em in *. clear Hm.
      destruct (existsb (hits rec) rows) eqn:X.
      - destruct Hupd as [[-> _]| ->]; [eauto|]. unfold checked.
        assert (Y : unique_ok veqb uniq (map (fun r => if hits rec r then assign us (proposed fill rows cols rec) r else r) rows) = true).
        { rewrite <- Q. apply unique_ok_ext.
          assert (G : forall R0, Forall2 (fun r s => forall c, In c (concat uniq) -> r c = s c) (map (fun r => if hits rec r then assign us (proposed fill R0 cols rec) r else r) rows) rows).
          { intros R0. clear X Q. induction rows as [|r rows IH]; simpl; constructor; [|exact IH]. intros c I.
            transitivity (U rec r c); [apply (assign_U R0 rec r L c)|]. apply U_keeps. intros J. apply in_concat in I. destruct I as (k & Ik & Ic).
            destruct (HK k Ik) as (c' & -> & I' & _). destruct Ic as [<-|[]]. exact (Hdis _ J I'). }
          apply G. }
        rewrite Y. eauto.
      - unfold insert_row.
        assert (Y : existsb (collide veqb uniq (fun c => if str_in c ins then proposed fill rows cols rec c else fill rows c)) rows = false).
        { apply Bool.not_true_is_false. intros Z. apply existsb_exists in Z. destruct Z as (r & Ir & Cr).
          unfold collide in Cr. apply existsb_exists in Cr. destruct Cr as (k & Ik & Sk). destruct (HK k Ik) as (c & -> & Im & Ii).
          unfold same_key in Sk. simpl in Sk. rewrite Bool.andb_true_r in Sk. apply str_in_spec in Ii. rewrite Ii in Sk.
          assert (W : hits rec r = true).
          { unfold matched. apply existsb_exists. exists c. split; [exact Im|]. unfold proposed in Sk.
            destruct (param_listed cols rec c L (Hms c Im)) as (v & Pv). rewrite Pv in *. rewrite eq_val_sym. exact Sk. }
          assert (Z : existsb (hits rec) rows = true) by (apply existsb_exists; eauto). congruence. }
        rewrite Y. eauto.
    Qed.
    Lemma many_succeeds recs : forall rows, ms <> [] -> (forall x, In x recs -> length x = length cols) -> unique_ok veqb uniq rows = true ->
      (forall k, In k uniq -> exists c, k = [c] /\ In c ms /\ In c ins) ->
      exists rows', exec_many veqb uniq fill s rows recs = Ok rows' /\ unique_ok veqb uniq rows' = true.
    Proof.
      induction recs as [|x recs IH]; intros rows Hm HL Q HK; cbn [exec_many]; [eauto|].
      destruct (exec_succeeds rows x Hm (HL x (or_introl eq_refl)) Q HK) as (r1 & E1). rewrite E1. simpl.
      apply IH; auto. 
      - intros y I. apply HL. right. exact I.
      - eapply exec_unique; [|exact Q|exact E1]. intros c J I. apply in_concat in I. destruct I as (k & Ik & Ic).
        destruct (HK k Ik) as (c' & -> & I' & _). destruct Ic as [<-|[]]. exact (Hdis _ J I').
    Qed.
  End Merge.

  (** ** ON CONFLICT (key) DO UPDATE; ON DUPLICATE KEY UPDATE *)
  Section Key.
    Variables (cols keys us : list string).
    Hypothesis (Hkeys : forall c, In c keys -> In c cols) (Hus : forall c, In c us -> In c cols).
    Hypothesis (Hdis : forall c, In c us -> ~ In c keys).
    Variables (uniq : list (list string)) (fill : list row -> string -> value).
    Definition k_hits (rec : list value) (r : row) : bool := forallb (fun c => eq_val veqb (src cols rec c) (r c)) keys.
    Definition k_fresh (rec : list value) (n : row) : Prop := forall c, In c cols -> n c = src cols rec c.
    Definition k_keyed (rec : list value) : Prop := forall c, In c keys -> src cols rec c <> None.

    Lemma k_proposed rows rec c : length rec = length cols -> In c cols -> proposed fill rows cols rec c = src cols rec c.
    Proof. intros L I. unfold proposed, src. destruct (param_listed cols rec c L I) as (v & ->). reflexivity. Qed.
    Lemma k_same_key rows rec r : length rec = length cols -> same_key veqb (proposed fill rows cols rec) r keys = k_hits rec r.
    Proof.
      intros L. unfold same_key, k_hits. clear Hdis. induction keys as [|c k IH]; simpl; [reflexivity|].
      rewrite (k_proposed rows rec c L) by (apply Hkeys; left; reflexivity). f_equal. apply IH. intros x I. apply Hkeys. right. exact I.
    Qed.
    Lemma k_hits_ext rec (r r' : row) : (forall c, ~ In c us -> r c = r' c) -> k_hits rec r = k_hits rec r'.
    Proof.
      intros H0. assert (H : forall c, In c keys -> r c = r' c).
      { intros c I. apply H0. intros J. exact (Hdis c J I). }
      unfold k_hits. clear - H. induction keys as [|c m IH]; simpl; [reflexivity|].
      rewrite (H c) by (left; reflexivity). f_equal. apply IH. intros x I. apply H. right. exact I.
    Qed.
    Lemma k_fresh_hit rec n : k_keyed rec -> k_fresh rec n -> k_hits rec n = true.
    Proof.
      intros K F. unfold k_hits. apply forallb_forall. intros c I. rewrite (F c (Hkeys c I)).
      specialize (K c I). destruct (src cols rec c) as [v|] eqn:E; [|contradiction]. apply (eq_val_some veqb Veq). eauto.
    Qed.
    Lemma k_fresh_src rec n c : k_fresh rec n -> In c us -> n c = src cols rec c.
    Proof. intros F I. apply F. auto. Qed.
    Lemma k_assign rows rec r : length rec = length cols ->
      same_row (if same_key veqb (proposed fill rows cols rec) r keys then assign us (proposed fill rows cols rec) r else r)
               (upd_row us k_hits (src cols) rec r).
    Proof.
      intros L c. rewrite (k_same_key rows rec r L). unfold upd_row. destruct (k_hits rec r); simpl; [|reflexivity]. unfold assign.
      destruct (str_in c us) eqn:E; [|reflexivity]. apply str_in_spec in E. apply k_proposed; auto.
    Qed.
    Lemma k_exists rows0 rec rows : length rec = length cols ->
      existsb (fun r => same_key veqb (proposed fill rows0 cols rec) r keys) rows = existsb (k_hits rec) rows.
    Proof. intros L. induction rows as [|r rows IH]; simpl; [reflexivity|]. rewrite IH, (k_same_key rows0 rec r L). reflexivity. Qed.
    Lemma k_maps rows0 rec rows : length rec = length cols ->
      same_rows (map (fun r => if same_key veqb (proposed fill rows0 cols rec) r keys then assign us (proposed fill rows0 cols rec) r else r) rows)
                (map (upd_row us k_hits (src cols) rec) rows).
    Proof. intros L. induction rows as [|r rows IH]; simpl; constructor; [apply k_assign; exact L|exact IH]. Qed.

    (** PostgreSQL *)
    Lemma pg_step q rows rec rows' : exec_dml veqb uniq fill (QPgUpsert q cols keys us) rows rec = Ok rows' ->
      length rec = length cols /\
      ((existsb (k_hits rec) rows = true /\ same_rows rows' (map (upd_row us k_hits (src cols) rec) rows)) \/
       (existsb (k_hits rec) rows = false /\ exists n, rows' = rows ++ [n] /\ k_fresh rec n /\ existsb (collide veqb uniq n) rows = false)).
    Proof.
      cbn [exec_dml]. destruct (Nat.eqb (length rec) (length cols)) eqn:L; cbn [negb]; [|discriminate]. apply Nat.eqb_eq in L.
      destruct (existsb (same_list keys) uniq); cbn [negb]; [|discriminate].
      intros H. split; [exact L|]. cbn zeta in H. rewrite (k_exists rows rec rows L) in H. destruct (existsb (k_hits rec) rows) eqn:X.
      - left. split; [reflexivity|]. unfold checked in H. destruct (unique_ok _ _ _); [|discriminate]. injection H as <-. apply k_maps. exact L.
      - right. split; [reflexivity|]. unfold insert_row in H.
        match type of H with (if ?b then _ else _) = _ => destruct b eqn:Cb; [discriminate|] end. injection H as <-.
        eexists. split; [reflexivity|]. split; [|exact Cb]. intros c I. apply k_proposed; auto.
    Qed.

    (** MySQL, where the primary key is the only key *)
    Lemma my_step q dup rows rec rows' : (dup = us \/ us = [] /\ dup = keys) ->
      exec_dml veqb [keys] fill (QMyInsert q cols (MyTakeCols dup)) rows rec = Ok rows' ->
      length rec = length cols /\
      ((existsb (k_hits rec) rows = true /\ same_rows rows' (map (upd_row us k_hits (src cols) rec) rows)) \/
       (existsb (k_hits rec) rows = false /\ exists n, rows' = rows ++ [n] /\ k_fresh rec n /\ existsb (collide veqb [keys] n) rows = false)).
    Proof.
      intros Hd. cbn [exec_dml]. destruct (Nat.eqb (length rec) (length cols)) eqn:L; cbn [negb]; [|discriminate]. apply Nat.eqb_eq in L.
      intros H. split; [exact L|]. cbn zeta in H. cbn [first_dup] in H. rewrite (k_exists rows rec rows L) in H. destruct (existsb (k_hits rec) rows) eqn:X.
      - left. split; [reflexivity|]. unfold checked in H. destruct (unique_ok _ _ _); [|discriminate]. injection H as <-.
        destruct Hd as [-> |[Eu ->]]; [apply k_maps; exact L|].
        assert (G : forall R0, same_rows (map (fun r => if same_key veqb (proposed fill R0 cols rec) r keys then assign keys (proposed fill R0 cols rec) r else r) rows)
                                         (map (upd_row us k_hits (src cols) rec) rows)).
        { intros R0. clear X. induction rows as [|r rows IH]; simpl; constructor; [|exact IH].
          intros c. unfold upd_row. rewrite Eu. simpl. rewrite Bool.andb_false_r.
          destruct (same_key _ _ _ _) eqn:S; [|reflexivity]. unfold assign. destruct (str_in c keys) eqn:Ec; [|reflexivity].
          apply str_in_spec in Ec. unfold same_key in S. rewrite forallb_forall in S. specialize (S c Ec).
          apply (eq_val_some veqb Veq) in S. destruct S as (v & A & B). congruence. }
        apply G.
      - right. split; [reflexivity|]. injection H as <-.
        eexists. split; [reflexivity|]. split; [intros c I; apply k_proposed; auto|].
        rewrite <- X, <- (k_exists rows rec rows L).
        assert (G : forall p R, existsb (collide veqb [keys] p) R = existsb (fun r => same_key veqb p r keys) R).
        { clear. intros p R. induction R as [|r R IH]; simpl; [reflexivity|]. rewrite <- IH.
          unfold collide at 1. simpl. rewrite Bool.orb_false_r. reflexivity. }
        apply G.
    Qed.
  End Key.
End P.
