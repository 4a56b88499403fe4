(** Proofs for C62, part 5: what is generated keeps the schema consistent after every statement. *)
From Verif Require Import PyStr QuoteModel ObjectDict ObjectDictProofs Types Objects SqlAst Ddl Mutate Convert DbSpec CatSpec RefSpec SortSpec SortProofs EqProofs KeySpec NoopProofs MergeProofs
  CatProofs1 CatProofs2 CatProofs3 CatProofs5 MutSpec TabProofs1 TabProofs2 RunProofs1 RunProofs2 RunProofs5 TextProofs1 TextProofs2 TextProofs8 GrowSpec GrowProofs1 GrowProofs4.
From Coq Require Import List Permutation Relations.
From stdpp Require Import gmap strings.
Open Scope list_scope.

Lemma filter_split {A} (p : A -> bool) l1 x l2 x1 x2 : List.NoDup (l1 ++ x :: l2) -> List.filter p (l1 ++ x :: l2) = x1 ++ x :: x2 -> x1 = List.filter p l1.
Proof.
  intros N E. rewrite List.filter_app in E. cbn [List.filter] in E.
  assert (N' : List.NoDup (List.filter p l1 ++ (if p x then x :: List.filter p l2 else List.filter p l2))).
  { pose proof (List.NoDup_filter p N) as N'. rewrite List.filter_app in N'. exact N'. }
  assert (Px : p x = true).
  { destruct (p x) eqn:P; [reflexivity|]. exfalso. assert (I : In x (List.filter p l1 ++ List.filter p l2)) by (rewrite E; apply in_app_iff; right; now left).
    apply in_app_iff in I as [I|I]; apply List.filter_In in I as [_ I]; congruence. }
  rewrite Px in E, N'. revert x1 E. generalize (List.filter p l1) as f1, N'. clear. intros f1 N'. induction f1 as [|y f1 IH]; intros x1 E.
  - destruct x1 as [|z x1]; [reflexivity|]. exfalso. cbn [app] in *. injection E as <- E. inversion N' as [|? ? N1 _]; subst. apply N1. rewrite E. apply in_app_iff. right. now left.
  - destruct x1 as [|z x1]; cbn [app] in *.
    + exfalso. injection E as -> E. inversion N' as [|? ? N1 _]; subst. apply N1. apply in_app_iff. right. now left.
    + injection E as <- E. f_equal. apply IH; [|exact E]. now inversion N'.
Qed.

Lemma no_drop_names (l l' : catalog) : (forall x, In x l -> In (n_name x) (map n_name l')) -> od_difference n_name l l' = [].
Proof.
  intros I. destruct (od_difference n_name l l') as [|x r] eqn:E; [reflexivity|]. exfalso. assert (H : In x (od_difference n_name l l')) by (rewrite E; now left).
  apply difference_in in H as [H1 H2]. apply H2. now apply I.
Qed.
Section Grow.
Context (d : Ddl.dialect) (s t : catalog) (D : db).
Hypothesis WS : cat_wf d s.
Hypothesis WT : cat_wf d t.
Hypothesis P : part_of s t.
Hypothesis RC : refs_closed t.
Hypothesis LN : local_news s t.
Hypothesis HC : has_cat d s D.

(** a type that exists: in the database before, or created by an earlier statement *)
Definition tq (l : list stmt) (q : qid) : Prop := (exists a, In a s /\ type_of a q) \/ tstmts l q.
Lemma tq_incl l l' q : incl l l' -> tq l q -> tq l' q.
Proof. intros I [H|H]; [now left|right; eapply tstmts_incl; eauto]. Qed.
Lemma has_type a q : In a s -> type_of a q -> type_exists D q.
Proof.
  intros Ia H. destruct H as [(e & Ie & E)|(e & Ie & E)]; unfold type_exists; rewrite <- E.
  - exists (want_enum e). split; [|reflexivity]. apply (proj2 HC a); [exact Ia|]. unfold ns_objs. rewrite !in_app_iff. left. apply in_map_iff. eauto.
  - exists (want_struct d e). split; [|reflexivity]. apply (proj2 HC a); [exact Ia|]. unfold ns_objs. rewrite !in_app_iff. right. left. apply in_map_iff. eauto.
Qed.
Lemma tq_provided l st : (forall D1, grows D D1 -> (forall q, tq l q -> type_exists D1 q) ->
    (forall q cols pkn pk cm, In (SCreateTable q cols pkn pk cm) l -> table_with D1 q pk (map cd_name cols)) -> needs st D1) -> provided D l st.
Proof.
  intros H D1 G H1 H2 H3. apply H; [exact G| |exact H3]. intros q [(a & Ia & T)|(q' & E & [(vs & I)|(ms & I)])].
  - eapply grow_type; [exact G|]. eapply has_type; eauto.
  - eapply exists_key; eauto.
  - eapply exists_key; eauto.
Qed.

(** ** One group of objects of a namespace *)
Definition cs (x : structt) : list stmt := ok_or [] (create_struct d x).
Definition ct (x : table) : list stmt := ok_or [] (create_table d x).
Definition block (es : list enumt) (ss : list structt) (ts : list table) : list stmt := map create_enum es ++ concat (map cs ss) ++ concat (map ct ts).
Section Block.
  Context (es : list enumt) (ss : list structt) (ts : list table) (pre : list stmt).
  Hypothesis OS : forall x, In x ss -> exists l, create_struct d x = Ok l.
  Hypothesis OT : forall x, In x ts -> exists l, create_table d x = Ok l.
  Lemma block_creation st : In st (block es ss ts) -> creation st.
  Proof.
    intros H. unfold block in H. rewrite !in_app_iff in H. destruct H as [H|[H|H]].
    - apply in_map_iff in H as (e & <- & _). exact Logic.I.
    - apply in_concat in H as (l & Hl & H). apply in_map_iff in Hl as (x & <- & Ix). unfold cs in H. destruct (OS x Ix) as [l Hl]. rewrite Hl in H. cbn [ok_or] in H.
      destruct (create_struct_stmts d x l Hl) as (r & -> & Hr). destruct H as [<-|H]; [exact Logic.I|]. destruct (Hr st H) as (q & c & ->). exact Logic.I.
    - apply in_concat in H as (l & Hl & H). apply in_map_iff in Hl as (x & <- & Ix). unfold ct in H. destruct (OT x Ix) as [l Hl]. rewrite Hl in H. cbn [ok_or] in H.
      destruct (create_table_stmts d x l Hl) as (cols & r1 & r2 & -> & _ & _ & H1 & H2 & _).
      destruct H as [<-|H]; [exact Logic.I|]. apply in_app_or in H as [H|H]; [now apply H1|]. destruct (H2 st H) as (c & rows & oc & -> & _). exact Logic.I.
  Qed.
  Lemma block_enum e : In e es -> In (SCreateEnum (e_name e) (e_values e)) (block es ss ts).
  Proof. intros I. unfold block. rewrite !in_app_iff. left. exact (in_map create_enum _ _ I). Qed.
  Lemma cs_in l x : (forall x, In x l -> exists l, create_struct d x = Ok l) -> In x l -> In (SCreateStruct (s_name x) (map (fun m => (m_name m, m_type m)) (s_members x))) (concat (map cs l)).
  Proof.
    intros O I. apply in_concat. exists (cs x). split; [now apply in_map|]. unfold cs. destruct (O x I) as [r Hr]. rewrite Hr. cbn [ok_or]. destruct (create_struct_stmts d x r Hr) as (r' & -> & _). now left.
  Qed.
  Lemma block_struct x : In x ss -> In (SCreateStruct (s_name x) (map (fun m => (m_name m, m_type m)) (s_members x))) (block es ss ts).
  Proof. intros I. unfold block. rewrite !in_app_iff. right. left. now apply cs_in. Qed.
  Lemma block_table x : In x ts -> exists cols, In (SCreateTable (t_name x) cols (pk_name d (t_name x)) (t_pk x) (inline_table_comment d x)) (block es ss ts) /\ map cd_name cols = map c_name (t_columns x).
  Proof.
    intros I. destruct (OT x I) as [r Hr]. destruct (create_table_stmts d x r Hr) as (cols & r1 & r2 & El & _ & En & _). exists cols. split; [|exact En].
    unfold block. rewrite !in_app_iff. right. right. apply in_concat. exists (ct x). split; [now apply in_map|]. unfold ct. rewrite Hr, El. now left.
  Qed.
  Hypothesis HM : forall x1 x x2 m q, ss = x1 ++ x :: x2 -> In m (s_members x) -> In q (type_refs (m_type m)) -> tq (pre ++ map create_enum es ++ concat (map cs x1)) q.
  Hypothesis HCo : forall x c q, In x ts -> In c (t_columns x) -> In q (type_refs (c_type c)) -> tq (pre ++ map create_enum es ++ concat (map cs ss)) q.
  Lemma block_okl : okl D pre (block es ss ts).
  Proof.
    unfold block. apply okl_app; [|apply okl_app].
    - apply okl_all. intros st H. apply in_map_iff in H as (e & <- & _). intros D1 _ _ _ _. exact Logic.I.
    - apply okl_concat. intros x1 x x2 Ex. assert (Ix : In x ss) by (rewrite Ex; apply in_app_iff; right; now left). unfold cs at 2. destruct (OS x Ix) as [l Hl]. rewrite Hl. cbn [ok_or].
      destruct (create_struct_stmts d x l Hl) as (r & -> & Hr). apply okl_all. intros st [<-|H]; [|destruct (Hr st H) as (q & c & ->); intros D1 _ _ _ _; exact Logic.I].
      apply tq_provided. intros D1 _ HQ _ p Hp q Hq. apply in_map_iff in Hp as (m & <- & Im). cbn [snd] in Hq. apply HQ. rewrite <- app_assoc. eapply HM; eauto.
    - apply okl_concat. intros x1 x x2 Ex. assert (Ix : In x ts) by (rewrite Ex; apply in_app_iff; right; now left). unfold ct at 2. destruct (OT x Ix) as [l Hl]. rewrite Hl. cbn [ok_or].
      destruct (create_table_stmts d x l Hl) as (cols & r1 & r2 & -> & Hc & En & H1 & H2 & _). apply (okl_app D _ [_]); [|apply okl_app].
      + apply okl_all. intros st [<-|[]]. apply tq_provided. intros D1 _ HQ _ cd Icd q Hq. destruct (Hc cd Icd) as (k & Ik & _ & Ty). rewrite Ty in Hq. apply HQ.
        eapply tq_incl; [|eapply HCo; eauto]. rewrite <- !app_assoc. intros y. rewrite !in_app_iff. tauto.
      + apply okl_all. intros st H D1 _ _ _ _. now apply H1.
      + apply okl_all. intros st H. destruct (H2 st H) as (cl & rows & oc & -> & Hin). apply tq_provided. intros D1 _ _ HT. cbn [needs].
        destruct (HT (t_name x) cols (pk_name d (t_name x)) (t_pk x) (inline_table_comment d x)) as (tb & Hb & _ & Hcols).
        { apply in_app_iff. left. apply in_app_iff. right. now left. }
        exists tb. split; [exact Hb|]. intros k Ik. apply Hcols. rewrite En. auto.
  Qed.
End Block.

(** ** What exists before *)
Lemma old_part m q : In m t -> In (key_of q) (cat_keys s) -> fst (key_of q) = n_name m ->
  exists a, In a s /\ n_name a = n_name m /\ incl (n_enums a) (n_enums m) /\ incl (n_structs a) (n_structs m) /\ incl (n_tables a) (n_tables m) /\ In (key_of q) (map key_of (ns_names a)).
Proof.
  intros Im K E. apply in_cat_keys in K as (a & Ia & K). pose proof (key_scope d s a _ WS Ia K) as Ea. exists a. split; [exact Ia|]. split; [congruence|].
  destruct (same_ns d s t WT P a m Ia Im) as (J1 & J2 & J3); [congruence|]. auto.
Qed.
Lemma key_local q q' : key_of q = key_of q' -> local_id q = local_id q'.
Proof. unfold key_of. congruence. Qed.
Lemma type_scope m q : In m t -> type_of m q -> fst (key_of q) = n_name m.
Proof.
  intros Im [(e & Ie & <-)|(e & Ie & <-)]; apply (nw_scope _ _ (cw_ns _ _ WT m Im)); [now apply enum_in|now apply struct_in].
Qed.
Lemma type_key m q : In m t -> type_of m q -> In (key_of q) (cat_keys t).
Proof.
  intros Im H. unfold cat_keys. destruct H as [(e & Ie & <-)|(e & Ie & <-)]; apply in_map; apply in_flat_map; exists m; (split; [exact Im|]); [now apply enum_in|now apply struct_in].
Qed.
Lemma old_type m q : In m t -> type_of m q -> In (key_of q) (cat_keys s) -> exists a, In a s /\ type_of a q.
Proof.
  intros Im T K. destruct (old_part m q Im K (type_scope m q Im T)) as (a & Ia & _ & _ & _ & J3 & Ka). exists a. split; [exact Ia|].
  destruct (kinds_apart d t WT m Im) as (_ & K2 & K3). apply in_map_iff in Ka as (q' & Eq & Iq). unfold ns_names in Iq. rewrite !in_app_iff in Iq. destruct Iq as [Iq|[Iq|Iq]]; apply in_map_iff in Iq as (y & <- & Iy).
  - left. eauto.
  - right. eauto.
  - exfalso. destruct T as [(e & Ie & E)|(e & Ie & E)].
    + apply (K2 e y Ie (J3 _ Iy)). apply key_local. congruence.
    + apply (K3 e y Ie (J3 _ Iy)). apply key_local. congruence.
Qed.
Lemma old_table m y q : In m t -> In y (n_tables m) -> key_of (t_name y) = key_of q -> In (key_of q) (cat_keys s) -> exists a, In a s /\ In y (n_tables a).
Proof.
  intros Im Iy E K. assert (Sc : fst (key_of q) = n_name m) by (rewrite <- E; apply (nw_scope _ _ (cw_ns _ _ WT m Im)); now apply table_in).
  destruct (old_part m q Im K Sc) as (a & Ia & _ & J1 & J2 & J3 & Ka). exists a. split; [exact Ia|].
  destruct (kinds_apart d t WT m Im) as (_ & K2 & K3). apply in_map_iff in Ka as (q' & Eq & Iq). unfold ns_names in Iq. rewrite !in_app_iff in Iq. destruct Iq as [Iq|[Iq|Iq]]; apply in_map_iff in Iq as (z & <- & Iz).
  - exfalso. apply (K2 z y (J1 _ Iz) Iy). apply key_local. congruence.
  - exfalso. apply (K3 z y (J2 _ Iz) Iy). apply key_local. congruence.
  - assert (z = y) as ->; [|exact Iz]. apply (tables_one d t WT m z y Im (J3 _ Iz) Iy). unfold t_key. apply key_local. congruence.
Qed.

Lemma other_found n ty q lst : In n t -> In ty (types_of n) -> other_type t n ty q ->
  (forall m, In m t -> ~ In (n_name m) (map n_name s) -> depends t (n_name n) (n_name m) -> type_of m q -> tstmts lst q) -> tq lst q.
Proof.
  intros Hn It (Hu & m & Im & Nm & Hs & Ht) H.
  assert (U : SortSpec.uses n q).
  { unfold types_of in It. apply in_app_or in It as [It|It]; apply in_flat_map in It as (x & Ix & It); apply in_map_iff in It as (y & <- & Iy).
    - eapply uses_member; eauto.
    - eapply uses_column; eauto. }
  pose proof (type_scope m q Im Ht) as Sc. assert (Kt : In (key_of q) (cat_keys t)) by exact (type_key m q Im Ht). destruct (LN n q Hn U Kt) as [K|[K|K]].
  - left. exact (old_type m q Im Ht K).
  - congruence.
  - right. apply (H m Im); [congruence| |exact Ht]. split; [congruence|]. exists n, m, q. auto 10.
Qed.

Lemma ns_okl n es ss ts ps pre : In n t -> ss = List.filter ps (n_structs n) -> incl ts (n_tables n) ->
  (forall e, In e (n_enums n) -> In e es \/ exists a, In a s /\ In e (n_enums a)) ->
  (forall x, In x (n_structs n) -> In x ss \/ exists a, In a s /\ In x (n_structs a)) ->
  (forall x, In x ss -> exists l, create_struct d x = Ok l) -> (forall x, In x ts -> exists l, create_table d x = Ok l) ->
  (forall m q, In m t -> ~ In (n_name m) (map n_name s) -> depends t (n_name n) (n_name m) -> type_of m q -> tstmts pre q) ->
  okl D pre (block es ss ts).
Proof.
  intros Hn ES IT HE HS OS OT HA.
  assert (EnIn : forall l q e, incl (map create_enum es) l -> In e (n_enums n) -> key_of (e_name e) = key_of q -> tq l q).
  { intros l q e I Ie E. destruct (HE e Ie) as [J|(a & Ia & J)]; [right|left; exists a; split; [exact Ia|left; eauto]].
    exists (e_name e). split; [exact E|]. left. exists (e_values e). apply I. exact (in_map create_enum _ _ J). }
  apply block_okl; auto.
  - intros x1 x x2 m q Ex Im Iq. assert (Ix : In x (n_structs n)). { assert (J : In x ss) by (rewrite Ex; apply in_app_iff; right; now left). rewrite ES in J. now apply List.filter_In in J. }
    destruct (in_split x (n_structs n) Ix) as (l1 & l2 & El).
    assert (Nd : List.NoDup (l1 ++ x :: l2)) by (rewrite <- El; eapply NoDup_map_inv; exact (nk_structs _ (ns_keyed_wf d t n WT Hn))).
    assert (X1 : x1 = List.filter ps l1) by (eapply filter_split; [exact Nd|]; rewrite <- El, <- ES; exact Ex).
    destruct (rc_member _ RC n l1 x l2 m q Hn El Im Iq) as [(e & Ie & Ee)|[(y & Iy & Ey)|Ho]].
    + eapply EnIn; eauto. intros z. rewrite !in_app_iff. tauto.
    + assert (Iyn : In y (n_structs n)) by (rewrite El; apply in_app_iff; now left). destruct (HS y Iyn) as [J|(a & Ia & J)]; [right|left; exists a; split; [exact Ia|right; eauto]].
      rewrite ES in J. apply List.filter_In in J as [_ J]. assert (Iy1 : In y x1) by (rewrite X1; apply List.filter_In; auto).
      exists (s_name y). split; [exact Ey|]. right. eexists. rewrite !in_app_iff. right. right. apply cs_in; [|exact Iy1]. intros z Iz. apply OS. rewrite Ex. apply in_app_iff. now left.
    + eapply tq_incl; [|eapply (other_found n (m_type m) q pre Hn); [|exact Ho|]].
      * apply incl_appl, incl_refl.
      * unfold types_of. apply in_or_app. left. apply in_flat_map. exists x. split; [exact Ix|now apply in_map].
      * intros m' Im' Nm Dm Tm. eapply HA; eauto.
  - intros x c q Ix Ic Iq. apply IT in Ix. destruct (rc_column _ RC n x c q Hn Ix Ic Iq) as [[(e & Ie & Ee)|(y & Iy & Ey)]|Ho].
    + eapply EnIn; eauto. intros z. rewrite !in_app_iff. tauto.
    + destruct (HS y Iy) as [J|(a & Ia & J)]; [right|left; exists a; split; [exact Ia|right; eauto]].
      exists (s_name y). split; [exact Ey|]. right. eexists. rewrite !in_app_iff. right. right. now apply cs_in.
    + eapply tq_incl; [|eapply (other_found n (c_type c) q pre Hn); [|exact Ho|]].
      * apply incl_appl, incl_refl.
      * unfold types_of. apply in_or_app. right. apply in_flat_map. exists x. split; [exact Ix|now apply in_map].
      * intros m' Im' Nm Dm Tm. eapply HA; eauto.
Qed.

Lemma constraint_provided n x lst st : In n t -> In x (n_tables n) -> In st (add_constraints d x) ->
  (forall m y, In m t -> In y (n_tables m) -> n_name m = n_name n \/ ~ In (n_name m) (map n_name s) ->
     (exists a, In a s /\ In y (n_tables a)) \/ exists cols pkn c, In (SCreateTable (t_name y) cols pkn (t_pk y) c) lst) -> provided D lst st.
Proof.
  intros Hn Ix H HA. destruct (add_constraints_stmts d x st H) as (acts & -> & _ & Hk). apply tq_provided. intros D1 G _ HT k Ik. apply Hk in Ik.
  destruct k as [|a cl rt rc| |]; try exact Logic.I. destruct (rc_foreign _ RC n x a cl rt rc Hn Ix Ik) as (L & m & y & Im & Iy & Ek & Ep).
  split; [exact L|]. assert (Sc : fst (key_of rt) = n_name m) by (rewrite <- Ek; apply (nw_scope _ _ (cw_ns _ _ WT m Im)); now apply table_in).
  assert (Old : (exists a, In a s /\ In y (n_tables a)) -> exists tb, db_objs D1 !! key_of rt = Some (OTable tb) /\ (dt_pk tb = rc \/ exists n u, dt_cons tb !! n = Some (CUnique u rc))).
  { intros (b & Ib & J). assert (X : db_objs D !! key_of (t_name y) = Some (OTable (want_tab d y))) by (apply (proj2 HC b); [exact Ib|]; unfold ns_objs; rewrite !in_app_iff; right; right; apply in_map_iff; eauto).
    rewrite Ek in X. destruct (grow_table D D1 _ _ G X) as (tb & Htb & Pk & _). exists tb. split; [exact Htb|]. left. rewrite Pk. exact Ep. }
  assert (New : n_name m = n_name n \/ ~ In (n_name m) (map n_name s) -> exists tb, db_objs D1 !! key_of rt = Some (OTable tb) /\ (dt_pk tb = rc \/ exists n u, dt_cons tb !! n = Some (CUnique u rc))).
  { intros Z. destruct (HA m y Im Iy Z) as [O|(cols & pkn & c & J)]; [now apply Old|]. destruct (HT _ _ _ _ _ J) as (tb & Hb & Hp & _). exists tb. rewrite <- Ek. split; [exact Hb|]. left. congruence. }
  destruct (LN n rt Hn) as [K|[K|K]]; [eapply uses_foreign; eauto|rewrite <- Ek; unfold cat_keys; apply in_map; apply in_flat_map; exists m; split; [exact Im|now apply table_in]| | |].
  - apply Old. exact (old_table m y rt Im Iy Ek K).
  - apply New. left. congruence.
  - apply New. right. congruence.
Qed.

(** ** The statements *)
Definition obj (n : namespace) : list stmt := block (n_enums n) (n_structs n) (n_tables n).
Definition obj_ok (n : namespace) : Prop := (forall x, In x (n_structs n) -> exists l, create_struct d x = Ok l) /\ (forall x, In x (n_tables n) -> exists l, create_table d x = Ok l).
Lemma obj_shape n l : create_objects d n = Ok l -> l = obj n /\ obj_ok n.
Proof.
  intros H. unfold create_objects in H. apply bind_inv in H as (ss & Ess & H). apply bind_inv in H as (ts & Ets & H). apply Ok_inj in H.
  apply concat_res_ok in Ess as [O1 ->]. apply concat_res_ok in Ets as [O2 ->]. subst l. split; [reflexivity|split; assumption].
Qed.
Definition newE (p : namespace * namespace) : list enumt := od_difference e_key (n_enums (snd p)) (n_enums (fst p)).
Definition newS (p : namespace * namespace) : list structt := od_difference s_key (n_structs (snd p)) (n_structs (fst p)).
Definition newT (p : namespace * namespace) : list table := od_difference t_key (n_tables (snd p)) (n_tables (fst p)).
Definition part (p : namespace * namespace) : list stmt := block (newE p) (newS p) (newT p) ++ flat_map (add_constraints d) (newT p).
Definition part_ok (p : namespace * namespace) : Prop := (forall x, In x (newS p) -> exists l, create_struct d x = Ok l) /\ (forall x, In x (newT p) -> exists l, create_table d x = Ok l).
Lemma part_shape o p l : In (fst p) s -> In (snd p) t -> n_name (fst p) = n_name (snd p) -> mutate_namespace d o (fst p) (snd p) = Ok l -> l = part p /\ part_ok p.
Proof.
  destruct p as [a b]. cbn [fst snd]. intros Ia Ib E H. destruct (same_ns d s t WT P a b Ia Ib E) as (I1 & I2 & I3). unfold mutate_namespace in H. destruct (negb _); [discriminate|]. cbv zeta in H.
  rewrite (no_drop e_key _ _ I1), (no_drop s_key _ _ I2), (no_drop t_key _ _ I3) in H. cbn [flat_map map] in H.
  apply bind_inv in H as (ss & E1 & H). apply bind_inv in H as (ts & E2 & H). apply bind_inv in H as (me & E3 & H). apply bind_inv in H as (ms & E4 & H). apply bind_inv in H as (mt & E5 & H).
  apply Ok_inj in H. subst l.
  apply concat_res_all_nil in E3; [|intros p y Ip Hy; destruct (enums_common d s t WT P a b p Ia Ib E Ip) as [Ep _]; assert (Z : mutate_enum (fst p) (snd p) = Ok []) by (rewrite Ep; apply enum_noop; now apply enum_eqb_eq); congruence].
  apply concat_res_all_nil in E4; [|intros p y Ip Hy; destruct (structs_common d s t WT P a b p Ia Ib E Ip) as [Ep Is]; pose proof (nk_members _ (ns_keyed_wf d t b WT Ib) _ Is) as Nm; assert (Z : mutate_struct d (fst p) (snd p) = Ok []) by (rewrite Ep; apply struct_noop; [exact Nm|exact (struct_eqb_refl _ Nm)]); congruence].
  apply concat_res_all_nil in E5; [|intros p y Ip Hy; destruct (tables_common d s t WT P a b p Ia Ib E Ip) as [Ep It]; pose proof (nk_table _ (ns_keyed_wf d t b WT Ib) _ It) as Nt; rewrite Ep in Hy; exact (table_noop d (snd p) (snd p) y Nt Nt (table_eqb_refl _ Nt) Hy)].
  subst me ms mt. apply concat_res_ok in E1 as [O1 ->]. apply concat_res_ok in E2 as [O2 ->]. split; [|split; assumption].
  unfold part, block, newE, newS, newT, cs, ct. cbn [fst snd app]. destruct (allow_drop_table o), (allow_drop_struct o), (allow_drop_enum o); cbn [app]; rewrite ?app_nil_r, <- ?app_assoc; reflexivity.
Qed.

Lemma filter_true {A} (l : list A) : List.filter (fun _ => true) l = l.
Proof. induction l as [|x l IH]; cbn [List.filter]; [reflexivity|now rewrite IH]. Qed.
Lemma diff_or {A} (key : A -> string) l l' x : (forall y, In y l' -> key y = key x -> y = x) -> In x l -> In x (od_difference key l l') \/ In x l'.
Proof.
  intros U I. destruct (in_dec string_dec (key x) (od_keys key l')) as [K|K]; [right|left; apply difference_in; auto].
  unfold od_keys in K. apply in_map_iff in K as (y & Ky & Iy). now rewrite <- (U y Iy Ky).
Qed.

Lemma adds_creation st : only_adds s st -> creation st.
Proof. destruct st; cbn; try tauto. intros [_ H] a Ia. destruct (H a Ia) as [k ->]. exact Logic.I. Qed.

Theorem grow_runs o s' t' l : mutate_catalog d o s t = Ok (s', t', l) -> room s t D -> db_ok D ->
  runs (engine_of d) l D (Db (db_schemas D ∪ cat_schemas t) (cat_objs d t ∪ db_objs D)) /\ db_ok (Db (db_schemas D ∪ cat_schemas t) (cat_objs d t ∪ db_objs D)).
Proof.
  intros M RM HD. pose proof (grow d s t WS WT P o s' t' l D M HC RM) as X. pose proof (mutation_fine d s t WS WT P o s' t' l M) as Fi.
  enough (Ok' : okl D [] l).
  { destruct (creation_runs (engine_of d) l D _ HD X (fun st I => adds_creation st (proj1 (Fi st I)))) as (R1 & R2 & _); [|split; assumption]. intros l1 st l2 E. exact (Ok' l1 st l2 E). }
  clear X Fi. unfold mutate_catalog in M. apply bind_inv in M as (s1 & Hs & M). apply bind_inv in M as (t1 & Ht & M). apply bind_inv in M as (l1 & M & H). apply Ok_inj in H. injection H as -> -> ->.
  pose proof (cat_sort_correct t (proj1 (NoDup_ListNoDup _) (cw_names _ _ WT))) as So. rewrite Ht in So. destruct So as [[Pt So] _].
  apply (sort_perm d _ _ WS) in Hs.
  assert (Is : forall n, In n s' <-> In n s) by (intros n; split; apply Permutation_in; [now symmetry|assumption]).
  assert (It : forall n, In n t' <-> In n t) by (intros n; split; apply Permutation_in; [now symmetry|assumption]).
  assert (Is3 : forall k, In k (map n_name s) <-> In k (map n_name s')) by (intros k; split; intros I; apply in_map_iff in I as (x & <- & I); apply in_map; now apply Is).
  assert (ND : od_difference n_name s' t' = []).
  { apply no_drop_names. intros x Ix. apply Is in Ix. destruct (P x Ix) as (b & Ib & -> & _). apply in_map. now apply It. }
  unfold mutate_sorted in M. cbv zeta in M. rewrite ND in M. apply bind_inv in M as (cr & E4 & M). apply bind_inv in M as (mu & E5 & M). apply Ok_inj in M. cbn [flat_map app] in M.
  set (nsC := od_difference n_name t' s') in *. set (nsM := od_intersection n_name s' t') in *.
  assert (Nw : forall n, In n nsC <-> In n t /\ ~ In (n_name n) (map n_name s)).
  { intros n. unfold nsC. rewrite difference_in. unfold od_keys. rewrite It, <- Is3. tauto. }
  assert (Ol : forall p, In p nsM -> In (fst p) s /\ In (snd p) t /\ n_name (fst p) = n_name (snd p)).
  { intros p I. apply inter_in in I as (I1 & I2 & K). split; [now apply Is|split; [now apply It|exact K]]. }
  assert (OkC : forall n, In n nsC -> obj_ok n /\ ok_or [] (create_objects d n) = obj n).
  { apply concat_res_ok in E4 as [O _]. intros n I. destruct (O n I) as [r Hr]. destruct (obj_shape n r Hr) as [-> Hn]. rewrite Hr. auto. }
  assert (OkM : forall p, In p nsM -> part_ok p /\ ok_or [] (mutate_namespace d o (fst p) (snd p)) = part p).
  { apply concat_res_ok in E5 as [O _]. intros p I. destruct (O p I) as [r Hr]. destruct (Ol p I) as (I1 & I2 & K). destruct (part_shape o p r I1 I2 K Hr) as [-> Hn]. rewrite Hr. auto. }
  assert (Ec : cr = concat (map obj nsC)).
  { apply concat_res_ok in E4 as [_ ->]. f_equal. apply map_ext_in. intros n I. exact (proj2 (OkC n I)). }
  assert (Em : mu = concat (map part nsM)).
  { apply concat_res_ok in E5 as [_ ->]. f_equal. apply map_ext_in. intros n I. exact (proj2 (OkM n I)). }
  assert (El : l = flat_map (create_schema d) nsC ++ concat (map obj nsC) ++ flat_map (ns_add_constraints d) nsC ++ concat (map part nsM)).
  { rewrite <- M, Ec, Em. destruct (allow_drop_namespace o); cbn [app flat_map]; rewrite ?app_nil_r; reflexivity. }
  assert (ObT : forall lst n q, incl (obj n) lst -> In n nsC -> type_of n q -> tstmts lst q).
  { intros lst n q I In_ [(e & Ie & E)|(e & Ie & E)].
    - exists (e_name e). split; [exact E|]. left. eexists. apply I. now apply block_enum.
    - exists (s_name e). split; [exact E|]. right. eexists. apply I. apply block_struct; [exact (proj1 (proj1 (OkC n In_)))|exact Ie]. }
  assert (Obi : forall n x, In x nsC -> n = obj x -> incl n (concat (map obj nsC))).
  { intros n x I -> y Iy. apply in_concat. exists (obj x). split; [now apply in_map|exact Iy]. }
  assert (TbC : forall lst n y, incl (concat (map obj nsC)) lst -> In n nsC -> In y (n_tables n) -> exists cols pkn c, In (SCreateTable (t_name y) cols pkn (t_pk y) c) lst).
  { intros lst n y I In_ Iy. destruct (block_table (n_enums n) (n_structs n) (n_tables n) (proj2 (proj1 (OkC n In_))) y Iy) as (cols & J & _). do 3 eexists. apply I. eapply (Obi (obj n) n); eauto. }
  rewrite El. apply okl_app; [|apply okl_app; [|apply okl_app]].
  - apply okl_all. intros st H. apply in_flat_map in H as (n & _ & H). unfold create_schema in H. destruct (n_name n); [destruct H|]. destruct H as [<-|[]]. intros D1 _ _ _ _. exact Logic.I.
  - apply okl_concat. intros l1 n l2 E. assert (In_ : In n nsC) by (rewrite E; apply in_app_iff; right; now left). pose proof In_ as In0. apply Nw in In0 as [In0 Nn]. destruct (OkC n In_) as [[O1 O2] _].
    apply (ns_okl n (n_enums n) (n_structs n) (n_tables n) (fun _ => true)); auto using incl_refl.
    + now rewrite filter_true.
    + intros m q Im Nm Dm Tm. assert (Imt : In n t') by now apply It. destruct (in_split n t' Imt) as (k1 & k2 & Ek).
      assert (Nd : List.NoDup (k1 ++ n :: k2)).
      { rewrite <- Ek. eapply Permutation_NoDup; [exact Pt|]. eapply NoDup_map_inv. apply NoDup_ListNoDup. exact (cw_names _ _ WT). }
      assert (L1 : l1 = List.filter (fun x => negb (od_mem n_name (n_name x) s')) k1) by (eapply filter_split; [exact Nd|]; rewrite <- Ek; exact E).
      destruct (So k1 n k2 Ek _ Dm) as (m' & I' & Em'). assert (m' = m).
      { apply (ns_unique d t); auto. apply It. rewrite Ek. apply in_app_iff. now left. } subst m'.
      assert (ImC : In m nsC) by (apply Nw; auto). assert (Il1 : In m l1).
      { rewrite L1. apply List.filter_In. split; [exact I'|]. unfold nsC, od_difference in ImC. apply List.filter_In in ImC. tauto. }
      apply (ObT _ m q); auto. intros z Iz. apply in_app_iff. right. apply in_concat. exists (obj m). split; [now apply in_map|exact Iz].
  - apply okl_all. intros st H. apply in_flat_map in H as (n & In_ & H). unfold ns_add_constraints in H. apply in_flat_map in H as (x & Ix & H). pose proof In_ as In0. apply Nw in In0 as [In0 Nn].
    eapply (constraint_provided n x); eauto. intros m y Im Iy Z. right. assert (ImC : In m nsC) by (apply Nw; split; [exact Im|]; destruct Z as [Z|Z]; congruence). eapply (TbC _ m); eauto. apply incl_appr, incl_refl.
  - apply okl_concat. intros p1 p p2 E. assert (Ip : In p nsM) by (rewrite E; apply in_app_iff; right; now left). destruct (Ol p Ip) as (Ia & Ib & K). destruct (OkM p Ip) as [[O1 O2] _].
    destruct (same_ns d s t WT P _ _ Ia Ib K) as (J1 & J2 & J3). unfold part at 2. apply okl_app.
    + eapply (ns_okl (snd p) (newE p) (newS p) (newT p)); [exact Ib|reflexivity| | | |exact O1|exact O2|].
      * intros x I. unfold newT in I. now apply difference_in in I.
      * intros e Ie. destruct (diff_or e_key (n_enums (snd p)) (n_enums (fst p)) e) as [J|J]; [|exact Ie|now left|right; eauto].
        intros y Iy Ky. eapply (nodup_map_inj e_key (n_enums (snd p))); eauto. apply NoDup_ListNoDup. exact (nk_enums _ (ns_keyed_wf d t _ WT Ib)).
      * intros e Ie. destruct (diff_or s_key (n_structs (snd p)) (n_structs (fst p)) e) as [J|J]; [|exact Ie|now left|right; eauto].
        intros y Iy Ky. eapply (nodup_map_inj s_key (n_structs (snd p))); eauto. apply NoDup_ListNoDup. exact (nk_structs _ (ns_keyed_wf d t _ WT Ib)).
      * intros m q Im Nm _ Tm. assert (ImC : In m nsC) by (apply Nw; auto). apply (ObT _ m q); auto. pose proof (Obi (obj m) m ImC eq_refl) as Z. intros z Iz. rewrite !in_app_iff. left. left. right. now apply Z.
    + apply okl_all. intros st H. apply in_flat_map in H as (x & Ix & H). unfold newT in Ix. pose proof Ix as Ix0. apply difference_in in Ix as [Ix _].
      eapply (constraint_provided (snd p) x); eauto. intros m y Im Iy [Z|Z].
      * assert (m = snd p) by (apply (ns_unique d t); auto). subst m. destruct (diff_or t_key (n_tables (snd p)) (n_tables (fst p)) y) as [J|J]; [|exact Iy| |left; eauto].
        { intros z Iz Kz. eapply (nodup_map_inj t_key (n_tables (snd p))); eauto. apply NoDup_ListNoDup. exact (nk_tables _ (ns_keyed_wf d t _ WT Ib)). }
        right. destruct (block_table (newE p) (newS p) (newT p) O2 y J) as (cols & Jc & _). do 3 eexists. apply in_app_iff. right. exact Jc.
      * right. assert (ImC : In m nsC) by (apply Nw; auto). eapply (TbC _ m); eauto. intros z Iz. rewrite !in_app_iff. tauto.
Qed.
End Grow.
Print Assumptions grow_runs.
