(** Batches of upserts in terms of DmlSpec (C24, C25), deletion (C48). *)
From Verif Require Import PyStr QuoteModel ObjectDict ObjectDictProofs Types Objects Ddl Dml RowSpec DmlSpec TablePredProofs DmlProofs DmlProofs2.
From Coq Require Import Lia Arith.
Open Scope list_scope.

Section P.
  Context {V : Type} (veqb : V -> V -> bool) (Veq : forall x y, veqb x y = true <-> x = y).
  Notation value := (option V).
  Notation row := (string -> option V).

  Lemma src_value cols (rec : list value) c : NoDup cols -> length rec = length cols -> In c cols -> record_value cols rec c (src cols rec c).
  Proof.
    intros ND L I. unfold src. destruct (param_listed cols rec c L I) as (v & E). rewrite E. apply param_some; assumption.
  Qed.
  Lemma value_src cols (rec : list value) c v : NoDup cols -> record_value cols rec c v -> src cols rec c = v.
  Proof. intros ND H. apply param_some in H; [|exact ND]. unfold src. rewrite H. reflexivity. Qed.

  Lemma framed_ext (h1 : list value -> row -> bool) (h2 : list value -> row -> Prop) us over rows recs rows' :
    (forall x r, h1 x r = true <-> h2 x r) -> (forall c, In c us <-> over c) ->
    (exists old new, rows' = old ++ new /\
        Forall2 (fun r r' => (forall c, ~ In c us -> r' c = r c)
                          /\ ((forall x, In x recs -> h1 x r = false) -> same_row r' r)) rows old) ->
    framed h2 over rows recs rows'.
  Proof.
    intros Hh Hu (old & new & -> & F). exists old, new. split; [reflexivity|]. clear - F Hh Hu.
    induction F as [|r r' R R' [A B] F IH]; constructor; [|exact IH]. split.
    - intros c N. apply A. rewrite Hu. exact N.
    - intros H. apply B. intros x I. specialize (H x I). destruct (h1 x r) eqn:E; [|reflexivity]. apply Hh in E. contradiction.
  Qed.
  Lemma stored_ext (h1 : list value -> row -> bool) (h2 : list value -> row -> Prop) us over cols recs rows' :
    (forall x r, h1 x r = true <-> h2 x r) -> (forall c, In c us <-> over c) -> NoDup cols ->
    (forall c, In c us -> In c cols) -> (forall x, In x recs -> length x = length cols) ->
    (forall p1 x p2, recs = p1 ++ x :: p2 ->
         (exists r, In r rows' /\ h1 x r = true) /\
         (forall r, In r rows' -> h1 x r = true -> (forall y, In y p2 -> h1 y r = false) -> forall c, In c us -> r c = src cols x c)) ->
    stored h2 over cols recs rows'.
  Proof.
    intros Hh Hu ND Hc HL H p1 x p2 E. destruct (H p1 x p2 E) as [(r & Ir & Hr) HV]. split.
    - exists r. split; [exact Ir|]. apply Hh. exact Hr.
    - intros r' I X N c O. apply Hu in O. rewrite (HV r' I); [apply src_value; auto|apply Hh; exact X| |exact O].
      + apply HL. rewrite E. apply in_or_app. right. left. reflexivity.
      + intros y Iy. destruct (h1 y r') eqn:Z; [|reflexivity]. apply Hh in Z. destruct (N y Iy Z).
  Qed.

  Lemma many_lengths (exec : list row -> list value -> res (list row)) n recs : forall rows rows',
    (forall R x R', exec R x = Ok R' -> length x = n) ->
    many exec rows recs = Ok rows' -> forall x, In x recs -> length x = n.
  Proof.
    induction recs as [|x recs IH]; intros rows rows' H E y I; [destruct I|]. cbn [many] in E.
    destruct (exec rows x) as [r1|] eqn:E1; cbn [bind] in E; [|discriminate].
    destruct I as [<-|I]; [exact (H _ _ _ E1)|]. exact (IH r1 rows' H E y I).
  Qed.

  (** ** MERGE *)
  Section Merge.
    Variables (d : dialect) (t : table) (order : option (list string)) (cs : list column) (s : dml).
    Hypothesis (Hd : d <> DPg /\ d <> DMySQL) (HC : get_columns t order = Ok cs) (HS : upsert_stmt d t order = Ok s).
    Hypothesis (ND : NoDup (names cs)).
    Variables (fill : list row -> string -> value).
    Notation run := (exec_many veqb (table_keys t) fill s).

    Lemma merge_cases :
      (exists ms, s = QMerge (t_name t) (names cs) ms None None) \/
      (exists ms upd us ins, s = QMerge (t_name t) (names cs) ms upd (Some ins)
        /\ (upd = None /\ us = [] \/ upd = Some us)
        /\ (forall c, In c ms <-> In c (names cs) /\ lookup_key t c)
        /\ (forall c, In c ins <-> plain cs c)
        /\ (forall c, In c us <-> overwritten t cs c)).
    Proof.
      destruct (merge_shape d t order cs s Hd HC HS) as (ms & upd & ins & E & HM & HI & HU).
      destruct ins as [ins|].
      - right. destruct upd as [us|].
        + exists ms, (Some us), us, ins. auto 6.
        + exists ms, None, [], ins. split; [exact E|]. split; [auto|]. split; [exact HM|]. split; [exact HI|]. intros x. split; [intros []|]. intros O. destruct (HU x O).
      - left. destruct upd as [us|]; [|eauto]. exfalso.
        assert (N : forall c, ~ In c us) by (intros c Y; apply HU in Y; exact (HI c (proj1 Y))).
        destruct us as [|u us]; [|apply (N u); left; reflexivity].
        clear - E HS HC Hd. destruct Hd as [D1 D2]. subst s.
        unfold upsert_stmt in HS. rewrite HC in HS. simpl in HS.
        destruct d; try contradiction; simpl in HS;
        destruct (match_columns t cs); simpl in HS; try discriminate;
        destruct (filter_res _ (not_identity cs)) as [[|u us]|]; simpl in HS; discriminate.
    Qed.
    Lemma none_stuck ms uniq rows rec : exec_dml veqb uniq fill (QMerge (t_name t) (names cs) ms None None) rows rec = Ok rows -> False.
    Proof. simpl. destruct (negb _); [discriminate|]. destruct ms; discriminate. Qed.
    Lemma none_err ms uniq rows rec rows' : exec_dml veqb uniq fill (QMerge (t_name t) (names cs) ms None None) rows rec = Ok rows' -> False.
    Proof. simpl. destruct (negb _); [discriminate|]. destruct ms; discriminate. Qed.
    Lemma none_many ms uniq rows recs rows' : exec_many veqb uniq fill (QMerge (t_name t) (names cs) ms None None) rows recs = Ok rows' -> recs = [] /\ rows' = rows.
    Proof.
      destruct recs as [|x recs]; cbn [exec_many]; [intros [= <-]; auto|].
      destruct (exec_dml _ _ _ _ _ _) eqn:E; [|discriminate]. apply none_err in E. contradiction.
    Qed.
    Lemma plain_listed c : plain cs c -> In c (names cs).
    Proof. intros (k & I & E & _). apply names_in. eauto. Qed.

    Lemma merge_framed rows recs rows' : run rows recs = Ok rows' ->
      framed (hit t (names cs)) (overwritten t cs) rows recs rows'.
    Proof.
      destruct merge_cases as [(ms & ->)|(ms & upd & us & ins & -> & Hupd & HM & HI & HU)].
      - intros E. apply none_many in E. destruct E as [-> ->]. exists rows, []. rewrite app_nil_r. split; [reflexivity|].
        clear. induction rows as [|r rows IH]; constructor; [|exact IH]. split; [reflexivity|intros _ c; reflexivity].
      - intros E. apply (framed_ext (matched veqb ms (names cs)) _ us).
        + intros x r. apply (matched_hit veqb Veq t cs ND ms x r HM).
        + exact HU.
        + assert (A0 : forall c, In c ms -> In c (names cs)) by (intros c O; apply HM; exact O).
        assert (A1 : forall c, In c us -> In c ins) by (intros c O; apply HI; apply HU in O; apply O).
          assert (A2 : forall c, In c ins -> In c (names cs)) by (intros c O; apply plain_listed; apply HI; exact O).
          assert (A3 : forall c, In c us -> ~ In c ms) by (intros c O J; apply HU in O; apply HM in J; apply (proj2 O); apply J).
          exact (m_frame veqb (names cs) ms us ins (t_name t) upd Hupd A0 A1 A2 A3 (table_keys t) fill recs rows rows' E).
    Qed.
    Lemma identified_keyed ms ins rec : (forall c, In c ms <-> In c (names cs) /\ lookup_key t c) -> (forall c, In c ins <-> plain cs c) ->
      identified t cs rec -> m_keyed (V:=V) (names cs) ms ins rec.
    Proof.
      intros HM HI (c & v & Lk & Pl & R). exists c. split; [apply HM; split; [apply plain_listed; exact Pl|exact Lk]|].
      split; [apply HI; exact Pl|]. rewrite (value_src _ _ _ _ ND R). discriminate.
    Qed.
    Lemma merge_stored rows recs rows' : (forall x, In x recs -> identified t cs x) -> run rows recs = Ok rows' ->
      stored (hit t (names cs)) (overwritten t cs) (names cs) recs rows'.
    Proof.
      intros K. destruct merge_cases as [(ms & ->)|(ms & upd & us & ins & -> & Hupd & HM & HI & HU)].
      - intros E. apply none_many in E. destruct E as [-> ->]. intros [|? ?] ? ? Z; discriminate.
      - intros E.
        assert (A0 : forall c, In c ms -> In c (names cs)) by (intros c O; apply HM; exact O).
        assert (A1 : forall c, In c us -> In c ins) by (intros c O; apply HI; apply HU in O; apply O).
        assert (A2 : forall c, In c ins -> In c (names cs)) by (intros c O; apply plain_listed; apply HI; exact O).
        assert (A3 : forall c, In c us -> ~ In c ms) by (intros c O J; apply HU in O; apply HM in J; apply (proj2 O); apply J).
        apply (stored_ext (matched veqb ms (names cs)) _ us); auto.
        + intros x r. apply (matched_hit veqb Veq t cs ND ms x r HM).
        + intros x. rewrite exec_many_many in E. revert x. apply (many_lengths _ _ _ _ _) with (2 := E).
          intros R x R' H. apply (exec_step2 veqb (names cs) ms us ins (t_name t) upd Hupd A0 A1 A2 A3) in H. apply H.
        + apply (m_covered veqb Veq (names cs) ms us ins (t_name t) upd Hupd A0 A1 A2 A3 (table_keys t) fill recs rows rows'); [|exact E].
          intros x I. apply identified_keyed; auto.
    Qed.
    Lemma merge_idempotent rows recs rows1 rows2 : (forall x, In x recs -> identified t cs x) ->
      run rows recs = Ok rows1 -> run rows1 recs = Ok rows2 -> same_rows rows2 rows1.
    Proof.
      intros K. destruct merge_cases as [(ms & ->)|(ms & upd & us & ins & -> & Hupd & HM & HI & HU)].
      - intros E1 E2. apply none_many in E1, E2. destruct E1, E2. subst. apply same_rows_refl.
      - assert (A0 : forall c, In c ms -> In c (names cs)) by (intros c O; apply HM; exact O).
        assert (A1 : forall c, In c us -> In c ins) by (intros c O; apply HI; apply HU in O; apply O).
        assert (A2 : forall c, In c ins -> In c (names cs)) by (intros c O; apply plain_listed; apply HI; exact O).
        assert (A3 : forall c, In c us -> ~ In c ms) by (intros c O J; apply HU in O; apply HM in J; apply (proj2 O); apply J).
        apply (m_idempotent veqb Veq (names cs) ms us ins (t_name t) upd Hupd A0 A1 A2 A3 (table_keys t) fill recs).
        intros x I. apply identified_keyed; auto.
    Qed.
    Lemma keys_lookup k c : In k (table_keys t) -> k = [c] -> lookup_key t c.
    Proof.
      intros I ->. unfold table_keys in I. apply in_app_or in I. destruct I as [I|I].
      - left. destruct (t_pk t); [destruct I|]. destruct I as [I|[]]. exact I.
      - right. apply in_flat_map in I. destruct I as (k & Ik & J). destruct k; try destruct J as [].
        + subst. eauto.
        + destruct H.
    Qed.
    (** when each key is a single listed column that is not generated, no upsert of records of the right
        width can fail, and keys stay unique *)
    Lemma merge_succeeds rows recs k : t_pk t = [k] ->
      (forall k, In k (table_keys t) -> exists c, k = [c] /\ plain cs c) ->
      (forall x, In x recs -> length x = length (names cs)) -> unique_ok veqb (table_keys t) rows = true ->
      exists rows', run rows recs = Ok rows' /\ unique_ok veqb (table_keys t) rows' = true.
    Proof.
      intros Pk HK HL Q. assert (Ik : In [k] (table_keys t)) by (unfold table_keys; rewrite Pk; left; reflexivity).
      destruct (HK _ Ik) as (k' & [= <-] & Plk).
      destruct (merge_shape d t order cs s Hd HC HS) as (ms0 & upd0 & ins0 & E0 & _ & HI0 & _).
      destruct merge_cases as [(ms & ->)|(ms & upd & us & ins & -> & Hupd & HM & HI & HU)].
      - injection E0 as <- <- <-. destruct (HI0 k Plk).
      - clear E0 HI0. 
        assert (A0 : forall c, In c ms -> In c (names cs)) by (intros c O; apply HM; exact O).
        assert (A1 : forall c, In c us -> In c ins) by (intros c O; apply HI; apply HU in O; apply O).
        assert (A2 : forall c, In c ins -> In c (names cs)) by (intros c O; apply plain_listed; apply HI; exact O).
        assert (A3 : forall c, In c us -> ~ In c ms) by (intros c O J; apply HU in O; apply HM in J; apply (proj2 O); apply J).
        apply (many_succeeds veqb Veq (names cs) ms us ins (t_name t) upd) with (recs := recs) (rows := rows); auto.
        + assert (In k ms) by (apply HM; split; [apply plain_listed; exact Plk|apply (keys_lookup [k]); auto]).
          intros ->. contradiction.
        + intros x J. destruct (HK x J) as (c & -> & Pc). exists c. split; [reflexivity|]. split; [|apply HI; exact Pc].
          apply HM. split; [apply plain_listed; exact Pc|]. apply (keys_lookup [c]); auto.
    Qed.
  End Merge.

  (** ** PostgreSQL and MySQL *)
  Lemma k_hit_iff t (rec : list value) r cols : NoDup cols -> (forall c, In c (t_pk t) -> In c cols) ->
    (k_hits veqb cols (t_pk t) rec r = true <-> pk_hit t cols rec r).
  Proof.
    intros ND HK. unfold k_hits, pk_hit. rewrite forallb_forall. split; intros H c I; specialize (H c I).
    - apply (eq_val_some veqb Veq) in H. destruct H as (v & A & B). exists v. split; [|exact B].
      apply param_some; [exact ND|]. unfold src in A. destruct (param cols rec c); congruence.
    - destruct H as (v & A & B). apply (eq_val_some veqb Veq). exists v. split; [|exact B]. apply value_src; assumption.
  Qed.
  Lemma value_columns_names t vs : get_value_columns t None = Ok vs -> forall c, In c (names vs) <-> value_column t c.
  Proof.
    intros H c. destruct (get_value_columns_ok t None vs H) as (cs & E & _ & HV). simpl in E. injection E as <-.
    rewrite names_in. unfold value_column, plain. split.
    - intros (k & I & <-). apply HV in I. destruct I as (I & N & F). split; eauto.
    - intros [(k & I & <- & F) N]. exists k. split; [apply HV; auto|reflexivity].
  Qed.

  Section Key.
    Variables (d : dialect) (t : table) (order : option (list string)) (cs : list column) (s : dml).
    Hypothesis (Hd : d = DPg \/ d = DMySQL /\ table_keys t = [t_pk t]).
    Hypothesis (HC : get_columns t order = Ok cs) (HS : upsert_stmt d t order = Ok s).
    Hypothesis (ND : NoDup (names cs)).
    (** every column is listed *)
    Hypothesis (HA : forall k, In k (t_columns t) -> In (c_name k) (names cs)).
    Hypothesis (HP : forall c, In c (t_pk t) -> In c (names (t_columns t))).
    Variables (fill : list row -> string -> value).
    Notation run := (exec_many veqb (table_keys t) fill s).
    Notation hits := (k_hits veqb (names cs) (t_pk t)).

    Lemma key_step : exists us, (forall c, In c us <-> value_column t c) /\
      forall rows rec rows', exec_dml veqb (table_keys t) fill s rows rec = Ok rows' ->
      length rec = length (names cs) /\
      ((existsb (hits rec) rows = true /\ same_rows rows' (map (upd_row us hits (src (names cs)) rec) rows)) \/
       (existsb (hits rec) rows = false /\ exists n, rows' = rows ++ [n] /\ k_fresh (names cs) rec n
          /\ existsb (collide veqb (table_keys t) n) rows = false)).
    Proof.
      assert (A : forall c, In c (t_pk t) -> In c (names cs)).
      { intros c I. apply HP in I. apply names_in in I. destruct I as (k & I & <-). auto. }
      unfold upsert_stmt in HS. rewrite HC in HS. cbn [bind] in HS.
      assert (U : forall us c, (forall c, In c us <-> value_column t c) -> In c us -> In c (names cs)).
      { intros us c H I. apply H in I. destruct I as [(k & I & <- & _) _]. auto. }
      destruct Hd as [-> |[-> K]]; destruct (get_value_columns t None) as [vs|] eqn:E; cbn [bind] in HS; try discriminate;
        pose proof (value_columns_names t vs E) as HV; exists (names vs); (split; [exact HV|]); intros rows rec rows'.
      - injection HS as <-. apply pg_step; [exact A|]. intros c. apply U. exact HV.
      - rewrite K. assert (Es : exists dup, s = QMyInsert (t_name t) (names cs) (MyTakeCols dup) /\ (dup = names vs \/ names vs = [] /\ dup = t_pk t)).
        { destruct vs; injection HS as <-; eauto. }
        destruct Es as (dup & -> & Hdup). apply my_step; auto. intros c. apply U. exact HV.
    Qed.
    Lemma key_facts us : (forall c, In c us <-> value_column t c) ->
      (forall c, In c (t_pk t) -> In c (names cs)) /\ (forall c, In c us -> In c (names cs)) /\ (forall c, In c us -> ~ In c (t_pk t)).
    Proof.
      intros H. repeat split.
      - intros c I. apply HP in I. apply names_in in I. destruct I as (k & I & <-). auto.
      - intros c I. apply H in I. destruct I as [(k & I & <- & _) _]. auto.
      - intros c I. apply H in I. apply I.
    Qed.
    Lemma given_keyed (rec : list value) : pk_given t (names cs) rec -> k_keyed (names cs) (t_pk t) rec.
    Proof. intros G c I. destruct (G c I) as (v & R). rewrite (value_src _ _ _ _ ND R). discriminate. Qed.

    Lemma key_framed rows recs rows' : run rows recs = Ok rows' -> framed (pk_hit t (names cs)) (value_column t) rows recs rows'.
    Proof.
      destruct key_step as (us & HU & ST). destruct (key_facts us HU) as (A & B & C).
      intros E. rewrite exec_many_many in E. apply (framed_ext hits _ us); [intros; apply k_hit_iff; assumption|exact HU|].
      apply (frame us hits (src (names cs)) _ (k_fresh (names cs)) (k_hits_ext veqb _ _ us C)) with (2 := E).
      intros R x R' H. apply ST in H. destruct H as [_ [H|[X (n & H1 & H2 & _)]]]; [left; exact H|right; eauto].
    Qed.
    Lemma key_stored rows recs rows' : (forall x, In x recs -> pk_given t (names cs) x) -> run rows recs = Ok rows' ->
      stored (pk_hit t (names cs)) (value_column t) (names cs) recs rows'.
    Proof.
      destruct key_step as (us & HU & ST). destruct (key_facts us HU) as (A & B & C).
      intros K E. rewrite exec_many_many in E. apply (stored_ext hits _ us); [intros; apply k_hit_iff; assumption|exact HU|exact ND|exact B| |].
      - apply (many_lengths _ _ _ _ _) with (2 := E). intros R x R' H. apply ST in H. apply H.
      - apply (covered us hits (src (names cs)) _ (k_fresh (names cs)) (k_keyed (names cs) (t_pk t)) (k_hits_ext veqb _ _ us C)
                (k_fresh_hit veqb Veq _ _ A) (k_fresh_src _ us B)) with (3 := E).
        + intros R x R' H. apply ST in H. destruct H as [_ [H|[X (n & H1 & H2 & _)]]]; [left; exact H|right; eauto].
        + intros x I. apply given_keyed. auto.
    Qed.
    Lemma key_idempotent rows recs rows1 rows2 : (forall x, In x recs -> pk_given t (names cs) x) ->
      run rows recs = Ok rows1 -> run rows1 recs = Ok rows2 -> same_rows rows2 rows1.
    Proof.
      destruct key_step as (us & HU & ST). destruct (key_facts us HU) as (A & B & C).
      intros K. rewrite !exec_many_many.
      apply (idempotent us hits (src (names cs)) _ (k_fresh (names cs)) (k_keyed (names cs) (t_pk t)) (k_hits_ext veqb _ _ us C)
                (k_fresh_hit veqb Veq _ _ A) (k_fresh_src _ us B)).
      - intros R x R' H. apply ST in H. destruct H as [_ [H|[X (n & H1 & H2 & _)]]]; [left; exact H|right; eauto].
      - intros x I. apply given_keyed. auto.
    Qed.
    (** keys stay unique: other unique constraints are enforced by the engine *)
    Lemma key_unique rows recs rows' : unique_ok veqb (table_keys t) rows = true -> run rows recs = Ok rows' ->
      unique_ok veqb (table_keys t) rows' = true.
    Proof.
      revert rows. induction recs as [|x recs IH]; intros rows Q E; cbn [exec_many] in E; [congruence|].
      destruct (exec_dml veqb (table_keys t) fill s rows x) as [r1|] eqn:E1; cbn [bind] in E; [|discriminate].
      apply (IH r1); [|exact E]. clear IH E.
      destruct key_step as (us & HU & ST). pose proof (ST _ _ _ E1) as (_ & [[X S]|[X (n & -> & _ & Cn)]]).
      - clear ST HU S. unfold upsert_stmt in HS. rewrite HC in HS. cbn [bind] in HS.
        destruct Hd as [-> |[-> K]]; destruct (get_value_columns t None) as [vs|]; cbn [bind] in HS; try discriminate.
        + injection HS as <-. cbn [exec_dml] in E1. destruct (negb _); [discriminate|]. destruct (negb _); [discriminate|]. cbn zeta in E1.
          match type of E1 with (if ?b then _ else _) = _ => destruct b end.
          * unfold checked in E1. match type of E1 with (if ?b then _ else _) = _ => destruct b eqn:U; [|discriminate] end. injection E1 as <-. exact U.
          * unfold insert_row in E1. match type of E1 with (if ?b then _ else _) = _ => destruct b eqn:Cb; [discriminate|] end.
            injection E1 as <-. apply unique_snoc; assumption.
        + assert (Es : exists dup, s = QMyInsert (t_name t) (names cs) (MyTakeCols dup)) by (destruct vs; injection HS as <-; eauto).
          destruct Es as (dup & ->). cbn [exec_dml] in E1. destruct (negb _); [discriminate|]. cbn zeta in E1. rewrite K in *.
          destruct (first_dup veqb [t_pk t] (proposed fill rows (names cs) x) rows) eqn:F.
          * unfold checked in E1. match type of E1 with (if ?b then _ else _) = _ => destruct b eqn:U; [|discriminate] end. injection E1 as <-. exact U.
          * injection E1 as <-. apply unique_snoc; [exact Veq|exact Q|].
            cbn [first_dup] in F. match type of F with (if ?b then _ else _) = _ => destruct b eqn:Cb; [discriminate|] end.
            clear - Cb. rewrite <- Cb. generalize (proposed fill rows (names cs) x). intros p. clear Cb.
            induction rows as [|r R IH]; simpl; [reflexivity|]. rewrite <- IH. unfold collide at 1. simpl. rewrite Bool.orb_false_r. reflexivity.
      - apply unique_snoc; assumption.
    Qed.
  End Key.

  (** ** DELETE *)
  Lemma delete_many q c fill uniq keys : forall rows rows',
    exec_many veqb uniq fill (QDelete q c) rows (map (fun k => [k]) keys) = Ok rows' ->
    rows' = filter (fun r => negb (existsb (fun k => eq_val veqb (r c) k) keys)) rows.
  Proof.
    induction keys as [|k keys IH]; intros rows rows' E; cbn [map exec_many] in E.
    - injection E as <-. simpl. clear. induction rows as [|r rows IH]; simpl; [reflexivity|]. rewrite <- IH. reflexivity.
    - cbn [exec_dml bind] in E. apply IH in E. subst. clear. induction rows as [|r rows IH]; simpl; [reflexivity|].
      destruct (eq_val veqb (r c) k) eqn:E; simpl; [exact IH|]. destruct (existsb _ keys); simpl; rewrite IH; reflexivity.
  Qed.
  Lemma delete_total q c fill uniq keys : forall rows,
    exists rows', exec_many veqb uniq fill (QDelete q c) rows (map (fun k => [k]) keys) = Ok rows'.
  Proof. induction keys as [|k keys IH]; intros rows; cbn [map exec_many]; [eauto|]. cbn [exec_dml bind]. apply IH. Qed.
End P.
