(** Proofs for C60: databases without some of their objects. *)
From Verif Require Import PyStr QuoteModel QuoteSpec QuoteProofs Types Objects SqlAst Ddl DbSpec SqlText DropSchema DropSpec.
From stdpp Require Import gmap strings.
From Coq Require Import Permutation.
Open Scope string_scope.

Global Instance in_schema_dec n k : Decision (in_schema n k).
Proof. unfold in_schema. apply _. Defined.
Lemma prefixed_starts ns k : prefixed_by ns k <-> fst k = "" /\ starts_with (ns ++ "__") (snd k) = true.
Proof. unfold prefixed_by. rewrite starts_with_spec. split; (intros (E & r & F); split; [exact E|exists r; rewrite F; now rewrite ?append_assoc]). Qed.
Global Instance prefixed_by_dec ns k : Decision (prefixed_by ns k).
Proof. destruct (decide (fst k = "" /\ starts_with (ns ++ "__") (snd k) = true)) as [Y|N]; [left|right]; now rewrite prefixed_starts. Defined.

Section Without.
  Context (P : okey -> Prop) `{forall k, Decision (P k)}.
  Definition others_only (D : db) : gmap okey dbobj := filter (fun p => ~ P (fst p)) (db_objs D).
  Lemma others_lookup D k o : others_only D !! k = Some o <-> db_objs D !! k = Some o /\ ~ P k.
  Proof. unfold others_only. rewrite map_filter_lookup_Some. simpl. tauto. Qed.
  (** consistency only depends on what the objects refer to *)
  Lemma ok_without D S' : db_ok D -> ~ foreign_key_into P D -> ~ column_made_of P D -> ~ member_made_of P D ->
    (forall (k : okey) o, db_objs D !! k = Some o -> ~ P k -> schema_ok (Db S' (others_only D)) k = true) -> db_ok (Db S' (others_only D)).
  Proof.
    intros OK NF NC NM SO k o L. cbn [db_objs] in L. apply others_lookup in L as [L NP]. destruct (OK k o L) as [O _]. split; [|eapply SO; eauto].
    destruct o as [vs|ms com|t]; cbn [obj_ok] in *; [exact Logic.I| |].
    - intros n ty Hn q Iq. destruct (O n ty Hn q Iq) as (x & Lx & Tx). exists x. cbn [db_objs]. split; [|exact Tx]. apply others_lookup. split; [exact Lx|].
      intros Pq. apply NM. unfold member_made_of. do 6 eexists. eauto.
    - destruct O as [O1 O2]. split.
      + intros n c Hn q Iq. destruct (O1 n c Hn q Iq) as (x & Lx & Tx). exists x. cbn [db_objs]. split; [|exact Tx]. apply others_lookup. split; [exact Lx|].
        intros Pq. apply NC. unfold column_made_of. do 5 eexists. eauto.
      + intros n kc Hn. destruct (O2 n kc Hn) as [F OC]. split; [|exact OC]. destruct kc as [|f cs rt rc| |]; cbn [fk_ok] in *; auto.
        destruct F as [E (t' & Lt & U)]. split; [exact E|]. exists t'. split; [|exact U]. cbn [db_objs]. apply others_lookup. split; [exact Lt|].
        intros Pq. apply NF. unfold foreign_key_into. do 7 eexists. eauto.
  Qed.
End Without.
Lemma schema_ok_eq D D' k : db_schemas D' = db_schemas D -> schema_ok D' k = schema_ok D k.
Proof. unfold schema_ok. now intros ->. Qed.
Lemma no_schema D k o : db_ok D -> db_objs D !! k = Some o -> fst k <> "" -> fst k ∈ db_schemas D.
Proof.
  intros OK L N. destruct (OK k o L) as [_ S]. unfold schema_ok in S. apply orb_true_iff in S as [S|S]; [apply String.eqb_eq in S; contradiction|].
  now apply bool_decide_eq_true in S.
Qed.
Lemma without_schema_is n D : without_schema n D = Db (db_schemas D ∖ {[ n ]}) (others_only (in_schema n) D).
Proof. reflexivity. Qed.
Lemma schema_ok_minus n D k X : schema_ok D k = true -> fst k <> n -> schema_ok (Db (db_schemas D ∖ {[ n ]}) X) k = true.
Proof.
  unfold schema_ok. cbn [db_schemas]. rewrite !orb_true_iff, !bool_decide_eq_true. intros [S|S] N; [now left|right]. set_solver.
Qed.
Lemma db_eq D D' : db_schemas D = db_schemas D' -> (forall k, db_objs D !! k = db_objs D' !! k) -> D = D'.
Proof. destruct D as [s o], D' as [s' o']. simpl. intros -> E. f_equal. now apply map_eq. Qed.
Lemma without_missing n D : db_ok D -> n <> "" -> n ∉ db_schemas D -> without_schema n D = D.
Proof.
  intros OK N NI. apply db_eq; [unfold without_schema; cbn [db_schemas]; set_solver|]. intros k. unfold without_schema. cbn [db_objs].
  destruct (db_objs D !! k) as [o|] eqn:E; [|now apply map_filter_lookup_None; left].
  apply map_filter_lookup_Some. split; [exact E|]. simpl. intros X. apply NI. rewrite <- X. eapply no_schema; eauto. now rewrite X.
Qed.

(** ** Answers *)
Lemma lists_exist {A} `{EqDecision A} (P : A -> Prop) `{forall x, Decision (P x)} (l : list A) : (forall x, P x -> In x l) -> exists out, lists P out.
Proof.
  intros B. exists (List.filter (fun x => bool_decide (P x)) (remove_dups l)). split.
  - apply List.NoDup_filter. apply NoDup_ListNoDup, NoDup_remove_dups.
  - intros x. rewrite filter_In, bool_decide_eq_true, <- elem_of_list_In, elem_of_remove_dups, elem_of_list_In. split; [tauto|auto].
Qed.
Global Instance has_table_dec D k : Decision (has_table D k).
Proof. unfold has_table. destruct (db_objs D !! k) as [[| |t]|]; try (right; intros (? & ?); discriminate). left. eauto. Defined.
Global Instance has_foreign_key_dec D k c : Decision (has_foreign_key D k c).
Proof.
  unfold has_foreign_key. destruct (db_objs D !! k) as [[| |t]|]; try (right; intros (? & ? & ? & ? & ? & ? & ?); discriminate).
  destruct (dt_cons t !! c) as [[|f cs rt rc| |]|] eqn:E; try (right; intros (? & ? & ? & ? & ? & X & Y); injection X as ->; congruence).
  left. do 5 eexists. eauto.
Defined.
Lemma table_names_bound D n t : has_table D (n, t) -> In t (map (fun p => snd (fst p)) (map_to_list (db_objs D))).
Proof. intros (x & L). apply in_map_iff. exists ((n, t), OTable x). split; [reflexivity|]. now apply elem_of_list_In, elem_of_map_to_list. Qed.
Lemma keys_bound D n p : has_foreign_key D (n, fst p) (snd p) ->
  In p (flat_map (fun x : okey * dbobj => match snd x with OTable t => map (fun y => (snd (fst x), fst y)) (map_to_list (dt_cons t)) | _ => [] end) (map_to_list (db_objs D))).
Proof.
  intros (t & a & cs & rt & rc & L & C). apply in_flat_map. exists ((n, fst p), OTable t). split; [now apply elem_of_list_In, elem_of_map_to_list|].
  simpl. apply in_map_iff. exists (snd p, CForeign a cs rt rc). split; [now destruct p|]. now apply elem_of_list_In, elem_of_map_to_list.
Qed.
Lemma tables_answer D n : exists out, lists (fun t => has_table D (n, t)) out.
Proof. apply (lists_exist _ _ (table_names_bound D n)). Qed.
Lemma keys_answer D n : exists out, lists (fun p => has_foreign_key D (n, fst p) (snd p)) out.
Proof. apply (lists_exist _ _ (keys_bound D n)). Qed.
