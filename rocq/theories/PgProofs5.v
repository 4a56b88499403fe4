(** Proofs about the PostgreSQL explorer: a namespace, and the catalog of several modules. *)
From Verif Require Import PyStr QuoteModel QuoteSpec ObjectDict ObjectDictProofs Types EqProofs Objects SqlAst Ddl DbSpec CatSpec CatProofs3 KeySpec Discover PgExplore PgCatSpec PgProofs1 PropsDiscover ExploreSpec PgProofs2 NoopProofs PgProofs3 PgProofs4.
From Verif Require Factory DiscoverSpec NsProofs4 NsProofs5 NsProofs2 NsProofs3.
From Coq Require Import List String Sorted Permutation Lia.
From stdpp Require Import gmap strings.

Lemma ns_parts_nodup n : List.NoDup (map local_id (ns_names n)) -> List.NoDup (map e_key (n_enums n)) /\ List.NoDup (map s_key (n_structs n)) /\ List.NoDup (map t_key (n_tables n)).
Proof.
  unfold ns_names. rewrite !map_app, !map_map. intros N. apply nodup_list in N. apply NoDup_app in N as (N1 & _ & N2). apply NoDup_app in N2 as (N2 & _ & N3).
  repeat split; apply nodup_list; assumption.
Qed.

Section Ns.
  Context (show : option string -> string -> string) (deparse : sqltype -> string -> string) (P : pgcat) (order : forall A : Type, string -> list A -> list A).
  Hypothesis K : keys_ok P.
  Hypothesis OA : oids_apart P.
  Hypothesis AO : any_order order.
  Hypothesis KO : keys_in_order order.
  Hypothesis SH : DiscoverSpec.show_ok show.
  Context (D : db) (n : namespace).
  Hypothesis W : ns_wf DPg n.
  Hypothesis S : ns_seen deparse n.
  Hypothesis TO : tells_of show deparse P D.
  Hypothesis Sch : n_name n ∈ db_schemas D.
  Hypothesis Has : forall k x, In (k, x) (ns_objs DPg n) -> db_objs D !! k = Some x.
  Hypothesis Only : forall k x, db_objs D !! k = Some x -> fst k = n_name n -> In k (map key_of (ns_names n)).
  Hypothesis Lab : labels_kept P n.
  Notation s := (n_name n).

  Lemma obj_in x k : db_objs D !! (s, k) = Some x -> In ((s, k), x) (ns_objs DPg n).
  Proof.
    intros H. pose proof (Only _ _ H eq_refl) as I. rewrite <- (ns_objs_keys DPg) in I. apply in_map_iff in I as ([k' x'] & E & I). cbn in E. subst k'.
    assert (Z : Some x = Some x') by (etransitivity; [symmetry; exact H|exact (Has _ _ I)]). injection Z as ->. exact I.
  Qed.
  Lemma scoped q : In q (ns_names n) -> q = Qualified (Some s) (local_id q) /\ key_of q = (s, local_id q).
  Proof. intros I. pose proof (sn_ids _ _ S q I) as E. split; [exact E|]. rewrite E at 1. reflexivity. Qed.
  Lemma in_e e : In e (n_enums n) -> In (e_name e) (ns_names n). Proof. intros I. unfold ns_names. rewrite !in_app_iff. left. now apply in_map. Qed.
  Lemma in_s e : In e (n_structs n) -> In (s_name e) (ns_names n). Proof. intros I. unfold ns_names. rewrite !in_app_iff. right. left. now apply in_map. Qed.
  Lemma in_t e : In e (n_tables n) -> In (t_name e) (ns_names n). Proof. intros I. unfold ns_names. rewrite !in_app_iff. right. right. now apply in_map. Qed.

  Lemma table_names k : In k (q_relations P s ["r"; "v"]%string) <-> In k (map t_key (n_tables n)).
  Proof.
    rewrite relations_in. split.
    - intros (kind & c & [<-|[<-|[]]] & R).
      + destruct (to_tables _ _ _ _ TO (s, k) c Sch R) as (tb & H). apply obj_in, in_ns_objs in H as [(e & Ie & E & X)|[(e & Ie & E & X)|(e & Ie & E & X)]]; [discriminate X|discriminate X|].
        destruct (scoped _ (in_t e Ie)) as [_ E']. unfold NsProofs4.ek, NsProofs5.sk, NsProofs5.tk in E; rewrite E' in E. injection E as ->. apply (in_map t_key) in Ie. exact Ie.
      + destruct (to_views _ _ _ _ TO (s, k) c Sch R).
    - intros I. apply in_map_iff in I as (t & <- & It). destruct (scoped _ (in_t t It)) as [_ E].
      assert (O : db_objs D !! key_of (t_name t) = Some (OTable (want_tab DPg t))) by (apply Has, in_ns_objs; right; right; eauto).
      destruct (to_objs _ _ _ _ TO _ _ O) as (c & R & _); [rewrite E; exact Sch|]. rewrite E in R. exists "r"%string, c. split; [now left|exact R].
  Qed.
  Lemma struct_names k : In k (q_relations P s ["c"]%string) <-> In k (map s_key (n_structs n)).
  Proof.
    rewrite relations_in. split.
    - intros (kind & c & [<-|[]] & R).
      destruct (to_structs _ _ _ _ TO (s, k) c Sch R) as (ms & cm & H). apply obj_in, in_ns_objs in H as [(e & Ie & E & X)|[(e & Ie & E & X)|(e & Ie & E & X)]]; [discriminate X| |discriminate X].
      destruct (scoped _ (in_s e Ie)) as [_ E']. unfold NsProofs4.ek, NsProofs5.sk, NsProofs5.tk in E; rewrite E' in E. injection E as ->. apply (in_map s_key) in Ie. exact Ie.
    - intros I. apply in_map_iff in I as (t & <- & It). destruct (scoped _ (in_s t It)) as [_ E].
      assert (O : db_objs D !! key_of (s_name t) = Some (want_struct DPg t)) by (apply Has, in_ns_objs; right; left; eauto).
      destruct (to_objs _ _ _ _ TO _ _ O) as (c & ct & R & _); [rewrite E; exact Sch|]. rewrite E in R. exists "c"%string, c. split; [now left|exact R].
  Qed.
  Lemma one_table t : In t (n_tables n) -> exists t', get_table P order (Qualified (Some s) (t_key t)) = Ok t' /\ t_key t' = t_key t /\ table_keyed t' /\ table_eqb t' t = true.
  Proof.
    intros It. destruct (scoped _ (in_t t It)) as [E1 E2].
    assert (O : db_objs D !! key_of (t_name t) = Some (OTable (want_tab DPg t))) by (apply Has, in_ns_objs; right; right; eauto).
    destruct (to_objs _ _ _ _ TO _ _ O) as (c & R & T); [rewrite E2; exact Sch|]. rewrite E2 in R.
    destruct (table_found show deparse P order K OA AO KO SH s (local_id (t_name t)) c R t (nw_table _ _ W t It) (sn_table _ _ S t It) T E1) as (t' & G & N & Ky & Q).
    exists t'. split; [exact G|]. split; [unfold t_key; rewrite N; reflexivity|]. split; [exact Ky|exact Q].
  Qed.
  Lemma one_struct x : In x (n_structs n) -> exists x', get_struct P order (Qualified (Some s) (s_key x)) = Ok x' /\ s_key x' = s_key x /\ List.NoDup (map m_name (s_members x')) /\ struct_eqb x' x = true.
  Proof.
    intros It. destruct (scoped _ (in_s x It)) as [E1 E2].
    assert (O : db_objs D !! key_of (s_name x) = Some (want_struct DPg x)) by (apply Has, in_ns_objs; right; left; eauto).
    destruct (to_objs _ _ _ _ TO _ _ O) as (c & ct & R & TA & T & C); [rewrite E2; exact Sch|]. rewrite E2 in R, TA.
    destruct (struct_found show P order K OA AO SH s (local_id (s_name x)) c ct R TA x (nw_struct _ _ W x It) (sn_struct _ _ S x It) T C E1) as (x' & G & N & Ky & Q).
    exists x'. split; [exact G|]. split; [unfold s_key; rewrite N; reflexivity|]. split; [exact Ky|exact Q].
  Qed.

  Lemma enums_found : Permutation (map (fun g => Enum (Qualified (Some s) (fst g)) (map snd (snd g))) (groupby (sort_by by_enum (order _ "enums" (q_enums P s))))) (n_enums n).
  Proof.
    destruct (ns_parts_nodup n) as (N1 & _ & _); [apply nodup_list, (nw_keys _ _ W)|].
    apply (perm_by_key e_key); [rewrite map_map; exact (groups_nodup P order s)|exact N1| |].
    - intros x I. apply in_map_iff in I as ([k g] & <- & I). cbn [fst snd].
      destruct (proj1 (groups_in P order AO s k) (in_map fst _ _ I)) as (t & e & TA & Ie & Ee).
      destruct (to_enums _ _ _ _ TO (s, k) t e Sch TA Ie Ee) as (vs & H). apply obj_in, in_ns_objs in H as [(y & Iy & E & X)|[(y & Iy & E & X)|(y & Iy & E & X)]]; [|discriminate X|discriminate X].
      destruct (scoped _ (in_e y Iy)) as [E1 E2]. unfold NsProofs4.ek in E; rewrite E2 in E. injection E as E. rewrite E in TA, I |- *. rewrite (enum_group P order K AO s _ t (e_values y) g TA); [|apply Lab; [exact Iy|rewrite E2; exact TA]|exact I].
      rewrite <- E1. now destruct y.
    - intros y Iy. rewrite map_map. cbn. destruct (scoped _ (in_e y Iy)) as [E1 E2].
      assert (O : db_objs D !! key_of (e_name y) = Some (want_enum y)) by (apply Has, in_ns_objs; left; eauto).
      destruct (to_objs _ _ _ _ TO _ _ O) as (t & l & TA & _); [rewrite E2; exact Sch|].
      destruct (Lab y t Iy TA) as (rows & Pr & _ & Vr). rewrite E2 in TA.
      apply (groups_in P order AO s). destruct rows as [|r rows]; [exfalso; apply (sn_enum _ _ S y Iy); now rewrite <- Vr|].
      exists t, r. split; [exact TA|]. assert (Ir : In r (List.filter (fun e => N.eqb (enumtypid e) (typ_oid t)) (pg_enum P))) by (apply (Permutation_in _ Pr); now left). apply filter_In in Ir as [Ir Er]. apply N.eqb_eq in Er. auto.
  Qed.

  Lemma collect {A} (key : A -> string) (get : string -> res A) (good : A -> Prop) (eqA : A -> A -> bool) (names names' : list string) (l : list A) :
    Permutation names' names -> List.NoDup names -> List.NoDup (map key l) -> (forall k, In k names <-> In k (map key l)) -> (forall x, In x l -> exists x', get (key x) = Ok x' /\ key x' = key x /\ good x' /\ eqA x' x = true) ->
    exists r, map_res get names' = Ok r /\ List.NoDup (map key r) /\ (forall x, In x r -> good x) /\ od_eqb key eqA r l = true /\ (r = [] <-> l = []).
  Proof.
    intros Pn N1 N2 KN G.
    assert (Q : forall k, In k names' -> exists x', get k = Ok x' /\ exists x, In x l /\ key x = k /\ key x' = k /\ good x' /\ eqA x' x = true).
    { intros k I. apply (Permutation_in _ Pn), KN, in_map_iff in I as (x & <- & I). destruct (G x I) as (x' & E & E' & Gx & Ex). exists x'. split; [exact E|]. exists x. auto. }
    assert (F : exists r, Forall2 (fun k x' => get k = Ok x' /\ exists x, In x l /\ key x = k /\ key x' = k /\ good x' /\ eqA x' x = true) names' r).
    { clear -Q. induction names' as [|k names' IH]; [exists []; constructor|]. destruct (Q k (or_introl eq_refl)) as (x' & H). destruct IH as (r & F); [intros y I; apply Q; now right|]. exists (x' :: r). now constructor. }
    destruct F as (r & F). exists r. split; [apply map_res_forall2; clear -F; induction F as [|a b l' m (H & _) F IH]; constructor; auto|].
    assert (Kr : map key r = names') by (clear -F; induction F as [|a b l' m (_ & x & _ & _ & H & _) F IH]; cbn; congruence).
    assert (Nr : List.NoDup (map key r)) by (rewrite Kr; exact (Permutation_NoDup (Permutation_sym Pn) N1)).
    split; [exact Nr|]. split; [|split; [|split]].
    - intros x I. destruct (forall2_in_r _ _ _ _ F I) as (k & _ & _ & _ & _ & _ & _ & H & _). exact H.
    - apply eqb_by_key; [exact Nr|exact N2| |].
      + intros x I. destruct (forall2_in_r _ _ _ _ F I) as (k & _ & _ & y & Iy & E1 & E2 & _ & E). exists y. split; [exact Iy|]. split; [congruence|exact E].
      + intros y I. rewrite Kr. apply (Permutation_in _ (Permutation_sym Pn)), KN. now apply in_map.
    - intros ->. destruct l as [|x l]; [reflexivity|]. exfalso. cbn in Kr. subst names'. apply Permutation_nil in Pn. subst names. destruct (proj2 (KN (key x)) (or_introl eq_refl)).
    - intros ->. destruct names as [|k names]; [|destruct (proj1 (KN k) (or_introl eq_refl))]. apply Permutation_sym, Permutation_nil in Pn. subst names'. now inversion F.
  Qed.

  Lemma namespace_found : exists n', get_namespace P order s = Ok n' /\ n_name n' = s /\ ns_keyed n' /\ ns_eqb n' n = true.
  Proof.
    destruct (ns_parts_nodup n) as (N1 & N2 & N3); [apply nodup_list, (nw_keys _ _ W)|].
    destruct (collect s_key (fun k => get_struct P order (Qualified (Some s) k)) (fun x => List.NoDup (map m_name (s_members x))) struct_eqb _ _ (n_structs n) (AO _ "structs"%string _) (relations_nodup P K s ["c"%string]) N2 struct_names one_struct) as (ss & E2 & K2 & M2 & Q2 & Z2).
    destruct (collect t_key (fun k => get_table P order (Qualified (Some s) k)) table_keyed table_eqb _ _ (n_tables n) (AO _ "tables"%string _) (relations_nodup P K s ["r"; "v"]%string) N3 table_names one_table) as (ts & E3 & K3 & M3 & Q3 & Z3).
    pose proof enums_found as PE. unfold get_namespace. rewrite E2. cbn [bind]. rewrite E3. cbn [bind]. revert PE. generalize (map (fun g => Enum (Qualified (Some s) (fst g)) (map snd (snd g))) (groupby (sort_by by_enum (order _ "enums" (q_enums P s))))). intros es PE.
    assert (K1 : List.NoDup (map e_key es)) by exact (Permutation_NoDup (Permutation_sym (Permutation_map e_key PE)) N1).
    assert (R : exists n', (match es, ss, ts with [], [], [] => Ok (Ns "" [] [] []) | _, _, _ => Ok (Ns s (od_make e_key es) (od_make s_key ss) (od_make t_key ts)) end) = Ok n' /\ n' = Ns s es ss ts).
    { rewrite (make_id e_key es K1), (make_id s_key ss K2), (make_id t_key ts K3). destruct es as [|e es]; [|eauto]. destruct ss as [|x ss]; [|eauto]. destruct ts as [|t ts]; [|eauto]. exfalso. apply (sn_some _ _ S).
      apply Permutation_nil in PE. now rewrite PE, (proj1 Z2 eq_refl), (proj1 Z3 eq_refl). }
    destruct R as (n' & R & ->). rewrite R. eexists. split; [reflexivity|]. split; [reflexivity|]. split.
    - split; assumption.
    - unfold ns_eqb. cbn. rewrite String.eqb_refl, Q2, Q3, !andb_true_r. cbn. apply eqb_perm; [exact K1|exact PE|]. intros x _. now apply enum_eqb_eq.
  Qed.
End Ns.
