(** Destruction statements keep the schema consistent after every statement. *)
From Verif Require Import PyStr QuoteModel ObjectDict Types Objects SqlAst Ddl Mutate DbSpec CatSpec DbLemmas TabProofs1 TabProofs2 NsProofs1 NsProofs2 NsProofs3 RunProofs1.
From stdpp Require Import gmap strings.
Open Scope list_scope.

Definition shrink (v v' : option dbobj) : Prop :=
  match v, v' with
  | _, None => True
  | Some (OTable tb), Some (OTable tb') => dt_cols tb' = dt_cols tb /\ dt_pk tb' = dt_pk tb /\ forall n k, dt_cons tb' !! n = Some k -> dt_cons tb !! n = Some k
  | Some (OStruct ms _), Some (OStruct ms' _) => ms' = ms
  | Some (OEnum a), Some (OEnum b) => b = a
  | _, _ => False
  end.
Definition shrinks (D D' : db) : Prop := db_schemas D' ⊆ db_schemas D /\ forall k, shrink (db_objs D !! k) (db_objs D' !! k).
Lemma shrink_refl v : shrink v v.
Proof. destruct v as [[| |tb]|]; simpl; auto. Qed.
Lemma shrink_trans a b c : shrink a b -> shrink b c -> shrink a c.
Proof.
  destruct a as [[| |ta]|], b as [[| |tb]|], c as [[| |tc]|]; simpl; try tauto; try congruence.
  intros (A1 & A2 & A3) (B1 & B2 & B3). split; [congruence|]. split; [congruence|]. auto.
Qed.
Lemma shrinks_refl D : shrinks D D.
Proof. split; [reflexivity|]. intros k. apply shrink_refl. Qed.
Lemma shrinks_trans a b c : shrinks a b -> shrinks b c -> shrinks a c.
Proof. intros [A1 A2] [B1 B2]. split; [set_solver|]. intros k. eapply shrink_trans; eauto. Qed.

(** [o] has a foreign key to the table [k] *)
Definition fk_to (k : okey) (o : dbobj) : Prop :=
  match o with OTable tb => exists n a cs rt rc, dt_cons tb !! n = Some (CForeign a cs rt rc) /\ key_of rt = k | _ => False end.

Definition destruction (s : stmt) : Prop :=
  match s with
  | SDropSchema _ _ | SDropType _ | SDropTable _ => True
  | SAlterTable _ acts => exists ns, base.NoDup ns /\ acts = map ADropConstraint ns
  | _ => False
  end.
(** what must be gone before a statement *)
Definition clear_for (s : stmt) (D : db) : Prop :=
  match s with
  | SDropType q => forall k o, db_objs D !! k = Some o -> k <> key_of q -> ~ mentions_type (key_of q) o
  | SDropTable q => forall k o, db_objs D !! k = Some o -> k <> key_of q -> ~ fk_to (key_of q) o
  | SAlterTable q acts =>
      (forall n, In (ADropConstraint n) acts -> exists tb, db_objs D !! key_of q = Some (OTable tb) /\ is_Some (dt_cons tb !! n)) /\
      forall k tb n a cs rt rc, db_objs D !! k = Some (OTable tb) -> dt_cons tb !! n = Some (CForeign a cs rt rc) -> key_of rt = key_of q ->
        exists tq, db_objs D !! key_of q = Some (OTable tq) /\ dt_pk tq = rc
  | SDropSchema _ n => forall k, fst k = n -> db_objs D !! k = None
  | _ => True
  end.

Lemma drop_constraints_run E ns tb tb' : base.NoDup ns -> (forall n, In n ns -> is_Some (dt_cons tb !! n)) ->
  exec_actions E (map ADropConstraint ns) tb = Some tb' ->
  dt_cols tb' = dt_cols tb /\ dt_pk tb' = dt_pk tb /\ (forall n k, dt_cons tb' !! n = Some k -> dt_cons tb !! n = Some k /\ ~ In n ns).
Proof.
  revert tb. induction ns as [|n ns IH]; intros tb Nd Hp H.
  - injection H as <-. split; [reflexivity|]. split; [reflexivity|]. auto.
  - apply NoDup_cons in Nd as [N Nd]. rewrite elem_of_list_In in N. cbn [map exec_actions exec_action] in H.
    destruct (Hp n (or_introl eq_refl)) as [k Hk]. unfold exec_drop_constraint in H. rewrite Hk in H. cbn [mbind option_bind] in H.
    apply IH in H as (H1 & H2 & H3); [|exact Nd|].
    + simpl in *. split; [exact H1|]. split; [exact H2|]. intros m j Hj. apply H3 in Hj as [Hj Nj].
      destruct (decide (m = n)) as [->|Nm]; [rewrite lookup_delete in Hj; discriminate|]. rewrite lookup_delete_ne in Hj by congruence. split; [exact Hj|]. intros [Z|Z]; congruence.
    + intros m Im. simpl. rewrite lookup_delete_ne; [apply Hp; now right|congruence].
Qed.

Lemma type_kept D D' q : (forall k o, db_objs D !! k = Some o -> is_type o = true -> k = key_of q -> exists o', db_objs D' !! k = Some o' /\ is_type o' = true) -> type_exists D q -> type_exists D' q.
Proof. intros H (o & Ho & To). destruct (H _ o Ho To eq_refl) as (o' & Ho' & To'). exists o'. auto. Qed.

(** removing an object that nothing else refers to *)
Lemma remove_ok D k : db_ok D ->
  (forall k' o, db_objs D !! k' = Some o -> k' <> k -> ~ mentions_type k o /\ ~ fk_to k o) -> db_ok (set_obj k None D).
Proof.
  intros HD N k' o Ho. destruct (decide (k' = k)) as [->|Nk]; [rewrite set_obj_lookup in Ho; discriminate|]. rewrite set_obj_lookup_ne in Ho by congruence.
  destruct (HD k' o Ho) as [O S]. split; [|exact S]. destruct (N k' o Ho Nk) as [N1 N2].
  assert (TE : forall q, key_of q <> k -> type_exists D q -> type_exists (set_obj k None D) q).
  { intros q Nq (x & Hx & Tx). exists x. split; [|exact Tx]. now rewrite set_obj_lookup_ne by congruence. }
  destruct o as [vs|ms c|tb]; simpl in *; [exact I| |].
  - intros n t Hn q Iq. apply TE; [|exact (O n t Hn q Iq)]. intros E. apply N1. exists n, t, q. auto.
  - destruct O as [O1 O2]. split.
    + intros n c Hn q Iq. apply TE; [|exact (O1 n c Hn q Iq)]. intros E. apply N1. exists n, c, q. auto.
    + intros n j Hj. destruct (O2 n j Hj) as [F Ow]. split; [|exact Ow]. destruct j as [|a cs rt rc| |]; try exact I. destruct F as (L & t & Ht & Hk).
      split; [exact L|]. exists t. split; [|exact Hk]. rewrite set_obj_lookup_ne; [exact Ht|]. intros E. apply N2. exists n, a, cs, rt, rc. auto.
Qed.

Theorem destruction_step E s D D1 : destruction s -> exec E s D = Some D1 -> db_ok D -> clear_for s D -> db_ok D1 /\ shrinks D D1.
Proof.
  intros Cs X HD N. destruct s as [ine n|c n|q vs|q ms|q|q n|q v|q acts|q cols pkn pk c|q|q acts|q c|q col c|q c|q c|q cols rows oc|q src col|q nc oc ref]; simpl in Cs; try contradiction; cbn [exec] in X.
  - assert (G : db_ok (Db (db_schemas D ∖ {[n]}) (db_objs D)) /\ shrinks D (Db (db_schemas D ∖ {[n]}) (db_objs D))).
    { split; [|split; [simpl; set_solver|intros k; apply shrink_refl]]. intros k o Ho. simpl in Ho. destruct (HD k o Ho) as [O S]. split; [exact O|].
      unfold schema_ok in *. simpl. apply orb_true_iff in S as [S|S]; [now rewrite S|]. apply bool_decide_eq_true in S. rewrite bool_decide_true; [apply orb_true_r|].
      apply elem_of_difference. split; [exact S|]. intros Z. apply elem_of_singleton in Z. assert (Y := N k Z). unfold okey in *. congruence. }
    destruct c.
    + injection X as <-. replace (filter (fun p : okey * dbobj => p.1.1 <> n) (db_objs D)) with (db_objs D); [exact G|].
      symmetry. apply map_filter_id. intros k o Ho E'. simpl in E'. assert (Y := N k E'). unfold okey in *. congruence.
    + destruct (bool_decide (n ∈ db_schemas D)); [|discriminate]. simpl in X. destruct (bool_decide _); [|discriminate]. injection X as <-. exact G.
  - destruct (db_objs D !! key_of q) as [o|] eqn:Eo; [|discriminate]. cbn [mbind option_bind] in X. destruct (is_type o) eqn:To; [|discriminate]. injection X as <-. split.
    + apply remove_ok; [exact HD|]. intros k' o' Ho Nk. split; [exact (N k' o' Ho Nk)|]. intros Hf.
      destruct o' as [| |tb]; try contradiction. destruct Hf as (m & a & cs & rt & rc & Hc & Ek). destruct (HD _ _ Ho) as [[_ O2] _]. destruct (O2 _ _ Hc) as [(_ & t & Ht & _) _].
      rewrite Ek, Eo in Ht. injection Ht as ->. discriminate.
    + split; [reflexivity|]. intros k. destruct (decide (k = key_of q)) as [->|Nk]; [rewrite set_obj_lookup, Eo; now destruct o|]. rewrite set_obj_lookup_ne by congruence. apply shrink_refl.
  - destruct (db_objs D !! key_of q) as [[| |tb]|] eqn:Eo; try discriminate. injection X as <-. split.
    + apply remove_ok; [exact HD|]. intros k' o' Ho Nk. split; [|exact (N k' o' Ho Nk)]. intros Hm.
      destruct (HD _ _ Ho) as [O _]. destruct o' as [| |tb']; [exact Hm| |].
      * destruct Hm as (m & ty & q' & Hl & Iq & Ek). destruct (O _ _ Hl q' Iq) as (o & Hq & Tq). rewrite Ek, Eo in Hq. injection Hq as <-. discriminate.
      * destruct Hm as (m & c & q' & Hl & Iq & Ek). destruct (proj1 O _ _ Hl q' Iq) as (o & Hq & Tq). rewrite Ek, Eo in Hq. injection Hq as <-. discriminate.
    + split; [reflexivity|]. intros k. destruct (decide (k = key_of q)) as [->|Nk]; [rewrite set_obj_lookup, Eo; exact I|]. rewrite set_obj_lookup_ne by congruence. apply shrink_refl.
  - destruct Cs as (ns & Nd & ->). apply upd_table_step in X as (t & t' & X1 & X2 & ->). destruct N as [N1 N2].
    destruct (drop_constraints_run E ns t t' Nd) as (A1 & A2 & A3); [|exact X2|].
    { intros n In_. destruct (N1 n (in_map _ _ _ In_)) as (tb & Hb & Hs). rewrite X1 in Hb. injection Hb as <-. exact Hs. }
    assert (SH : shrinks D (set_obj (key_of q) (Some (OTable t')) D)).
    { split; [reflexivity|]. intros k. destruct (decide (k = key_of q)) as [->|Nk]; [rewrite set_obj_lookup, X1; simpl; split; [exact A1|]; split; [exact A2|]; intros n k Hk; now apply A3|].
      rewrite set_obj_lookup_ne by congruence. apply shrink_refl. }
    split; [|exact SH].
    assert (TE : forall q', type_exists D q' -> type_exists (set_obj (key_of q) (Some (OTable t')) D) q').
    { intros q' (x & Hx & Tx). exists x. split; [|exact Tx]. rewrite set_obj_lookup_ne; [exact Hx|]. intros E'. rewrite <- E', X1 in Hx. injection Hx as <-. discriminate. }
    assert (FE : forall k tb n j, db_objs D !! k = Some (OTable tb) -> dt_cons tb !! n = Some j -> fk_ok D j -> fk_ok (set_obj (key_of q) (Some (OTable t')) D) j).
    { intros k tb n j Hk Hj. destruct j as [|a cs rt rc| |]; try (intros; exact I). intros (L & tt & Ht & Hr). split; [exact L|].
      destruct (decide (key_of rt = key_of q)) as [Eq|Nq].
      - destruct (N2 k tb n a cs rt rc Hk Hj Eq) as (tq & Hq & Hp). rewrite X1 in Hq. injection Hq as <-. exists t'. rewrite Eq, set_obj_lookup. split; [reflexivity|]. left. congruence.
      - exists tt. rewrite set_obj_lookup_ne by congruence. auto. }
    intros k o Ho. destruct (decide (k = key_of q)) as [->|Nk].
    + rewrite set_obj_lookup in Ho. injection Ho as <-. destruct (HD _ _ X1) as [[O1 O2] S]. split; [|exact S]. split.
      * intros n c Hn. rewrite A1 in Hn. intros q' Iq. apply TE. exact (O1 n c Hn q' Iq).
      * intros n j Hj. apply A3 in Hj as [Hj _]. destruct (O2 n j Hj) as [F Ow]. split; [eapply FE; eauto|]. rewrite A1. exact Ow.
    + rewrite set_obj_lookup_ne in Ho by congruence. destruct (HD _ _ Ho) as [O S]. split; [|exact S]. destruct o as [|ms c|tb]; simpl in *; [exact I| |].
      * intros n ty Hn q' Iq. apply TE. exact (O n ty Hn q' Iq).
      * destruct O as [O1 O2]. split; [intros n c Hn q' Iq; apply TE; exact (O1 n c Hn q' Iq)|]. intros n j Hj. destruct (O2 n j Hj) as [F Ow]. split; [eapply FE; eauto|exact Ow].
Qed.
Lemma destruction_refs s D : destruction s -> refs_ok s D.
Proof. destruct s; simpl; tauto. Qed.

(** facts about the state after the prefix [l1] *)
Record done (D0 : db) (l1 : list stmt) (D1 : db) : Prop := {
  dn_shrinks : shrinks D0 D1;
  dn_table : forall q, In (SDropTable q) l1 -> db_objs D1 !! key_of q = None;
  dn_type : forall q, In (SDropType q) l1 -> db_objs D1 !! key_of q = None;
  dn_cons : forall q ns tb n, In (SAlterTable q (map ADropConstraint ns)) l1 -> In n ns -> db_objs D1 !! key_of q = Some (OTable tb) -> dt_cons tb !! n = None }.

Lemma shrinks_none D D' k : shrinks D D' -> db_objs D !! k = None -> db_objs D' !! k = None.
Proof. intros [_ S] H. specialize (S k). rewrite H in S. now destruct (db_objs D' !! k). Qed.
Lemma shrinks_table D D' k tb : shrinks D D' -> db_objs D' !! k = Some (OTable tb) -> exists tb0, db_objs D !! k = Some (OTable tb0) /\ dt_cols tb = dt_cols tb0 /\ dt_pk tb = dt_pk tb0 /\ forall n k, dt_cons tb !! n = Some k -> dt_cons tb0 !! n = Some k.
Proof. intros [_ S] H. specialize (S k). rewrite H in S. destruct (db_objs D !! k) as [[| |t0]|]; simpl in S; try contradiction. eauto. Qed.

Theorem destruction_runs E l D D' :
  db_ok D -> exec_all E l D = Some D' -> (forall s, In s l -> destruction s) ->
  (forall l1 s l2 D1, l = l1 ++ s :: l2 -> done D l1 D1 -> db_ok D1 -> exec_all E l1 D = Some D1 -> clear_for s D1) -> runs E l D D' /\ db_ok D'.
Proof.
  intros HD X HC HP.
  enough (G : forall l2 l1 D1, l = l1 ++ l2 -> exec_all E l2 D1 = Some D' -> db_ok D1 -> done D l1 D1 -> exec_all E l1 D = Some D1 -> runs E l2 D1 D' /\ db_ok D').
  { apply (G l [] D eq_refl X HD); [|reflexivity]. constructor; [apply shrinks_refl| | |]; intros; contradiction. }
  induction l2 as [|s l2 IH]; intros l1 D1 E1 X1 HD1 G1 X0.
  - injection X1 as <-. split; [reflexivity|exact HD1].
  - assert (Hs : destruction s) by (apply HC; rewrite E1; apply in_or_app; right; now left).
    assert (N := HP l1 s l2 D1 E1 G1 HD1 X0).
    cbn [exec_all] in X1. destruct (exec E s D1) as [D2|] eqn:X2; [|discriminate]. cbn [mbind option_bind] in X1.
    destruct (destruction_step E s D1 D2 Hs X2 HD1 N) as [HD2 S2].
    destruct (IH (l1 ++ [s]) D2) as [R1 R2].
    + rewrite <- app_assoc. exact E1.
    + exact X1.
    + exact HD2.
    + constructor.
      * eapply shrinks_trans; [exact (dn_shrinks _ _ _ G1)|exact S2].
      * intros q Hin. apply in_app_or in Hin as [Hin|[->|[]]]; [eapply shrinks_none; [exact S2|now apply (dn_table _ _ _ G1)]|].
        cbn [exec] in X2. destruct (db_objs D1 !! key_of q) as [[| |tb]|]; try discriminate. injection X2 as <-. apply set_obj_lookup.
      * intros q Hin. apply in_app_or in Hin as [Hin|[->|[]]]; [eapply shrinks_none; [exact S2|now apply (dn_type _ _ _ G1)]|].
        cbn [exec] in X2. destruct (db_objs D1 !! key_of q) as [o|]; [|discriminate]. cbn [mbind option_bind] in X2. destruct (is_type o); [|discriminate]. injection X2 as <-. apply set_obj_lookup.
      * intros q ns tb n Hin In_ Hb. apply in_app_or in Hin as [Hin|[->|[]]].
        { destruct (shrinks_table D1 D2 _ tb S2 Hb) as (tb0 & H0 & _ & _ & Hc). assert (Z := dn_cons _ _ _ G1 q ns tb0 n Hin In_ H0).
          destruct (dt_cons tb !! n) as [j|] eqn:Ej; [|reflexivity]. apply Hc in Ej. congruence. }
        { cbn [exec] in X2. apply upd_table_step in X2 as (t & t' & Y1 & Y2 & ->). rewrite set_obj_lookup in Hb. injection Hb as <-.
          destruct Hs as (ns' & Nd & Em). assert (ns' = ns). { clear - Em. revert ns' Em. induction ns as [|a ns IH]; intros [|b ns'] Em; try discriminate; [reflexivity|]. injection Em as -> Em. f_equal. auto. } subst ns'.
          destruct (drop_constraints_run E ns t t' Nd) as (_ & _ & A3); [|exact Y2|].
          { intros m Im. destruct N as [N1 _]. destruct (N1 m (in_map _ _ _ Im)) as (tb & Hb & Hsm). rewrite Y1 in Hb. injection Hb as <-. exact Hsm. }
          destruct (dt_cons t' !! n) as [j|] eqn:Ej; [|reflexivity]. apply A3 in Ej as [_ Z]. contradiction. }
    + rewrite exec_all_app, X0. cbn [mbind option_bind exec_all]. rewrite X2. reflexivity.
    + split; [|exact R2]. cbn [runs]. split; [now apply destruction_refs|]. exists D2. auto.
Qed.
