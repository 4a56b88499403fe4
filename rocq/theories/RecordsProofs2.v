(** Proofs for C28: merging labels into lookup tables. *)
From Verif Require Import PyStr QuoteModel ObjectDict ObjectDictProofs Types Objects SqlAst Ddl Render Dml RowSpec DmlSpec TablePredProofs
  DmlProofs Records RecordsSpec RecordsProofs.
From Coq Require Import Lia Arith Permutation.
Open Scope list_scope.

Lemma pv_eqb_iff a b : pv_eqb a b = true <-> a = b.
Proof. unfold pv_eqb. destruct (pv_eq_dec a b); intuition congruence. Qed.
Lemma nodup_snoc {A} (l : list A) a : NoDup l -> ~ In a l -> NoDup (l ++ [a]).
Proof.
  intros H N. apply NoDup_Add with (a := a) (l := l); [|auto]. pose proof (Add_app a l []) as X. rewrite app_nil_r in X. exact X.
Qed.

Section M.
  Context (d : dialect) (rel : table) (k v : string) (f : list prow -> string -> option pv).
  Context (ND : NoDup (map c_name (t_columns rel)))
          (UC : forall n cs, In (CUnique n cs) (t_constraints rel) -> cs <> [] /\ forall c, In c cs -> In c (map c_name (t_columns rel)))
          (LT : lookup_table rel k v) (GK : generated_key rel k v) (FK : fresh_keys f k v).

  Lemma plain_label : names (not_identity (t_columns rel)) = [v].
  Proof.
    destruct LT as (N & P & U & M). unfold generated_key in GK. destruct M as [M|M];
      destruct (t_columns rel) as [|a [|b [|? ?]]]; try discriminate; injection M as A B; unfold not_identity; cbn [filter];
      pose proof (GK a (or_introl eq_refl)) as [Ga Ga']; pose proof (GK b (or_intror (or_introl eq_refl))) as [Gb Gb'].
    - rewrite (Ga A), (Gb' B). cbn. now rewrite B.
    - rewrite (Ga' A), (Gb B). cbn. now rewrite A.
  Qed.
  Lemma label_key_in : In [v] (table_keys rel).
  Proof.
    destruct LT as (N & P & (n & U) & M). unfold table_keys. apply in_or_app. right. apply in_flat_map. exists (CUnique n [v]). split; [exact U|now left].
  Qed.
  Lemma keys_about ks : In ks (table_keys rel) -> In k ks \/ ks <> [] /\ forall c, In c ks -> c = v.
  Proof.
    destruct LT as (N & P & U & M). unfold table_keys. rewrite P. intros I. apply in_app_or in I. destruct I as [[<-|[]]|I]; [left; now left|].
    apply in_flat_map in I. destruct I as (c & I & J). destruct c; try destruct J as []; subst; try contradiction.
    destruct (UC _ _ I) as [NE IN]. destruct (in_dec string_dec k ks) as [|NK]; [now left|]. right. split; [exact NE|].
    intros c Ic. specialize (IN c Ic). destruct M as [M|M]; rewrite M in IN; simpl in IN; intuition; subst; contradiction.
  Qed.
  Lemma same_key_in (p r : prow) ks c : same_key pv_eqb p r ks = true -> In c ks -> exists x, p c = Some x /\ r c = Some x.
  Proof.
    unfold same_key. rewrite forallb_forall. intros H I. specialize (H c I). unfold eq_val in H.
    destruct (p c), (r c); try discriminate. apply pv_eqb_iff in H. subst. eauto.
  Qed.

  Definition fresh_row (rows : list prow) (x : pv) (p : prow) : Prop :=
    p v = Some x /\ exists z, p k = Some (PVInt z) /\ forall r, In r rows -> r k <> Some (PVInt z).
  Lemma collide_label rows x p r : fresh_row rows x p -> In r rows -> (collide pv_eqb (table_keys rel) p r = true <-> r v = Some x).
  Proof.
    intros (Pv & z & Pk & Fr) I. unfold collide. rewrite existsb_exists. split.
    - intros (ks & K & E). destruct (keys_about _ K) as [Ik|[NE AV]].
      + destruct (same_key_in _ _ _ _ E Ik) as (y & A & B). rewrite Pk in A. injection A as <-. exfalso. exact (Fr r I B).
      + destruct ks as [|c ks]; [contradiction|]. pose proof (AV c (or_introl eq_refl)) as ->.
        destruct (same_key_in _ _ _ _ E (or_introl eq_refl)) as (y & A & B). congruence.
    - intros E. exists [v]. split; [apply label_key_in|]. unfold same_key. cbn. rewrite Pv, E. cbn. rewrite (proj2 (pv_eqb_iff x x) eq_refl). reflexivity.
  Qed.
  Lemma exists_label rows x p : fresh_row rows x p -> (existsb (collide pv_eqb (table_keys rel) p) rows = true <-> has_label rows v x).
  Proof.
    intros F. rewrite existsb_exists. unfold has_label. split; intros (r & I & E); exists r; (split; [exact I|]); now apply (collide_label rows x p r F I).
  Qed.
  Lemma first_dup_none (p : prow) rows keys : first_dup pv_eqb keys p rows = None <-> existsb (collide pv_eqb keys p) rows = false.
  Proof.
    induction keys as [|ks keys IH]; cbn [first_dup].
    - split; [|reflexivity]. intros _. induction rows as [|r rows IH]; [reflexivity|]. cbn. exact IH.
    - destruct (existsb (fun r => same_key pv_eqb p r ks) rows) eqn:E.
      + split; [discriminate|]. intros X. apply existsb_exists in E. destruct E as (r & I & E).
        assert (Y : existsb (collide pv_eqb (ks :: keys) p) rows = true) by (apply existsb_exists; exists r; split; [exact I|]; unfold collide; cbn; rewrite E; reflexivity).
        congruence.
      + rewrite IH. clear IH. induction rows as [|r rows IH]; [reflexivity|]. cbn in *. apply Bool.orb_false_iff in E. destruct E as [E1 E2].
        unfold collide at 3. cbn. rewrite E1. cbn [orb]. fold (collide pv_eqb keys p r). rewrite !Bool.orb_false_iff, (IH E2). reflexivity.
  Qed.

  Lemma match_label : match_columns rel (not_identity (t_columns rel)) = Ok (not_identity (t_columns rel)).
  Proof.
    destruct LT as (N & P & (n & U) & M). pose proof plain_label as PL. destruct (not_identity (t_columns rel)) as [|c [|? ?]]; try discriminate. injection PL as E.
    unfold match_columns. cbn [filter_res]. assert (X : is_lookup_column rel (c_name c) = Ok true).
    { apply is_lookup_column_ok. exists k. split; [exact P|]. split; [|reflexivity]. intros _. right. exists n. rewrite E. exact U. }
    rewrite X. reflexivity.
  Qed.
  Lemma merge_total : exists s, merge_stmt d rel None = Ok s /\ forall rows x, lookup_rows rows k v ->
    (has_label rows v x -> exec_dml pv_eqb (table_keys rel) f s rows [Some x] = Ok rows) /\
    (~ has_label rows v x -> exists p, exec_dml pv_eqb (table_keys rel) f s rows [Some x] = Ok (rows ++ [p]) /\ fresh_row rows x p).
  Proof.
    assert (N : k <> v) by apply LT. unfold merge_stmt. cbn [get_columns bind]. rewrite plain_label, match_label.
    assert (FR : forall rows x, lookup_rows rows k v -> fresh_row rows x (proposed f rows [v] [Some x])).
    { intros rows x L. unfold fresh_row, proposed. cbn [param]. rewrite String.eqb_refl. split; [reflexivity|].
      destruct (String.eqb_spec v k) as [E|_]; [congruence|]. apply FK. exact L. }
    assert (MG : exists s, (do ms <- Ok (not_identity (t_columns rel)); Ok (QMerge (t_name rel) [v] (names ms) None (Some [v]))) = Ok s /\ forall rows x, lookup_rows rows k v ->
      (has_label rows v x -> exec_dml pv_eqb (table_keys rel) f s rows [Some x] = Ok rows) /\
      (~ has_label rows v x -> exists p, exec_dml pv_eqb (table_keys rel) f s rows [Some x] = Ok (rows ++ [p]) /\ fresh_row rows x p)).
    { cbn [bind]. rewrite plain_label. eexists. split; [reflexivity|]. intros rows x L. cbn [exec_dml length Nat.eqb negb].
      set (p := fun c => if str_in c [v] then proposed f rows [v] [Some x] c else f rows c).
      assert (F : fresh_row rows x p).
      { destruct (FR rows x L) as (A & B). unfold fresh_row, p. rewrite (proj2 (str_in_spec v [v])) by now left. split; [exact A|].
        assert (X : str_in k [v] = false) by (apply str_in_false; simpl; intuition congruence). rewrite X. apply FK. exact L. }
      assert (MX : existsb (matched pv_eqb [v] [v] [Some x]) rows = true <-> has_label rows v x).
      { rewrite existsb_exists. unfold has_label, matched. cbn. rewrite String.eqb_refl. split; intros (r & I & E); exists r; (split; [exact I|]).
        - rewrite Bool.orb_false_r in E. destruct (r v); [|discriminate]. cbn in E. apply pv_eqb_iff in E. congruence.
        - rewrite E. cbn. rewrite (proj2 (pv_eqb_iff x x) eq_refl). reflexivity. }
      split; intros H.
      - rewrite (proj2 MX H). reflexivity.
      - destruct (existsb (matched pv_eqb [v] [v] [Some x]) rows) eqn:E; [exfalso; apply H, MX; reflexivity|]. unfold insert_row.
        fold p. destruct (existsb (collide pv_eqb (table_keys rel) p) rows) eqn:E2; [exfalso; apply H, (exists_label rows x p F); exact E2|].
        exists p. auto. }
    destruct d; try exact MG; (eexists; split; [reflexivity|]); intros rows x L; cbn [exec_dml length Nat.eqb negb];
      set (p := proposed f rows [v] [Some x]); specialize (FR rows x L); fold p in FR; pose proof (exists_label rows x p FR) as EL; split; intros H.
    - rewrite (proj2 EL H). reflexivity.
    - destruct (existsb (collide pv_eqb (table_keys rel) p) rows) eqn:E; [exfalso; apply H, EL; reflexivity|]. exists p. auto.
    - destruct (first_dup pv_eqb (table_keys rel) p rows) eqn:E; [reflexivity|]. apply first_dup_none in E. rewrite (proj2 EL H) in E. discriminate.
    - destruct (first_dup pv_eqb (table_keys rel) p rows) eqn:E; [|exists p; auto].
      exfalso. apply H, EL. destruct (existsb (collide pv_eqb (table_keys rel) p) rows) eqn:E2; [reflexivity|]. apply first_dup_none in E2. congruence.
  Qed.
  Lemma lookup_rows_snoc rows x p : lookup_rows rows k v -> fresh_row rows x p -> ~ has_label rows v x -> lookup_rows (rows ++ [p]) k v.
  Proof.
    intros (A & B & C) (Pv & z & Pk & Fr) H. split; [|split].
    - intros r I. apply in_app_or in I. destruct I as [I|[<-|[]]]; [exact (A r I)|]. eauto.
    - rewrite map_app. apply nodup_snoc; [exact B|]. intros I. apply in_map_iff in I. destruct I as (r & E & I). apply (Fr r I). congruence.
    - rewrite map_app. apply nodup_snoc; [exact C|]. intros I. apply in_map_iff in I. destruct I as (r & E & I). apply H. exists r. split; [exact I|congruence].
  Qed.
  Lemma has_label_dec rows x : {has_label rows v x} + {~ has_label rows v x}.
  Proof.
    induction rows as [|r rows IH]; [right; intros (? & [] & _)|].
    destruct (r v) as [y|] eqn:E.
    - destruct (pv_eq_dec y x) as [->|NE]; [left; exists r; split; [now left|exact E]|].
      destruct IH as [IH|IH]; [left; destruct IH as (q & I & Q); exists q; split; [now right|exact Q]|].
      right. intros (q & [<-|I] & Q); [congruence|]. apply IH. exists q. auto.
    - destruct IH as [IH|IH]; [left; destruct IH as (q & I & Q); exists q; split; [now right|exact Q]|].
      right. intros (q & [<-|I] & Q); [congruence|]. apply IH. exists q. auto.
  Qed.
  Lemma merge_many s : merge_stmt d rel None = Ok s -> forall xs rows, lookup_rows rows k v ->
    exists new, exec_many pv_eqb (table_keys rel) f s rows (map (fun x => [Some x]) xs) = Ok (rows ++ new) /\ lookup_rows (rows ++ new) k v /\
      forall x, has_label new v x <-> In x xs /\ ~ has_label rows v x.
  Proof.
    intros ES. destruct merge_total as (s' & ES' & MT). assert (s' = s) by congruence. subst s'. clear ES'.
    induction xs as [|x xs IH]; intros rows L.
    - exists []. cbn. rewrite app_nil_r. split; [reflexivity|]. split; [exact L|]. intros x. split; [intros (? & [] & _)|intros [[] _]].
    - cbn [map exec_many]. destruct (MT rows x L) as [M1 M2]. destruct (has_label_dec rows x) as [H|H].
      + rewrite (M1 H). cbn [bind]. destruct (IH rows L) as (new & E & L' & W). exists new. split; [exact E|]. split; [exact L'|].
        intros y. rewrite W. simpl. split; [tauto|]. intros [[<-|I] NH]; [contradiction|auto].
      + destruct (M2 H) as (p & E & F). rewrite E. cbn [bind]. pose proof (lookup_rows_snoc _ _ _ L F H) as L1.
        destruct (IH _ L1) as (new & E2 & L' & W). exists (p :: new). rewrite <- app_assoc in E2, L'. split; [exact E2|]. split; [exact L'|].
        intros y. split.
        * intros (r & [<-|I] & Ey).
          -- destruct F as (Pv & _). assert (x = y) by congruence. subst y. split; [now left|exact H].
          -- destruct (proj1 (W y)) as [A B]; [exists r; auto|]. split; [now right|]. intros (q & J & Q). apply B. exists q. split; [apply in_or_app; now left|exact Q].
        * intros [[<-|I] NH].
          -- exists p. split; [now left|apply F].
          -- destruct (pv_eq_dec y x) as [->|NE]; [exists p; split; [now left|apply F]|].
             destruct (proj2 (W y)) as (r & J & Q); [|exists r; split; [now right|exact Q]]. split; [exact I|].
             intros (q & J & Q). apply in_app_or in J. destruct J as [J|[<-|[]]]; [apply NH; exists q; auto|]. destruct F as (Pv & _). congruence.
  Qed.
End M.
