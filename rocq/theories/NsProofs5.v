(** Mutation of one namespace reaches the target. *)
From Verif Require Import PyStr QuoteModel ObjectDict ObjectDictSpec ObjectDictProofs Types Objects SqlAst Ddl Mutate DbSpec CatSpec DbLemmas EqProofs TabProofs1 TabProofs2 TabProofs3 TabProofs4 TabProofs5 NsProofs1 NsProofs2 NsProofs3 NsProofs4.
From stdpp Require Import gmap strings.
Open Scope list_scope.

Definition sk (x : structt) : okey := key_of (s_name x).
Definition tk (x : table) : okey := key_of (t_name x).

Definition pr (nm n : string) : okey := (nm, n).
Lemma map_pair_keys {A} (nm : string) (kf : A -> okey) (key : A -> string) l :
  (forall x, In x l -> kf x = (nm, key x)) -> map kf l = map (pr nm) (map key l).
Proof. intros H. rewrite map_map. now apply map_ext_in. Qed.
Lemma in_pair nm (l : list string) n : In (nm, n) (map (pr nm) l) <-> In n l.
Proof. rewrite in_map_iff. split; [intros (x & [= ->] & H); exact H|eauto]. Qed.
Lemma in_pair_fst nm (l : list string) k : In k (map (pr nm) l) -> fst k = nm.
Proof. rewrite in_map_iff. now intros (x & <- & _). Qed.
Lemma nodup_pair nm (l : list string) : base.NoDup l -> base.NoDup (map (pr nm) l).
Proof. apply NoDup_fmap_2. intros a b. unfold pr; congruence. Qed.

Section Ns.
  Variables (d : dialect) (o : options) (s t : namespace).
  Let nm := n_name s.
  Hypothesis Nm : n_name t = nm.
  Hypothesis Ws : ns_wf d s.
  Hypothesis Wt : ns_wf d t.
  Hypothesis C : ns_compat d s t.

  Definition Es n := In n (map e_key (n_enums s)).
  Definition Ss n := In n (map s_key (n_structs s)).
  Definition Ts n := In n (map t_key (n_tables s)).
  Definition Et n := In n (map e_key (n_enums t)).
  Definition St n := In n (map s_key (n_structs t)).
  Definition Tt n := In n (map t_key (n_tables t)).

  Let enum_create := od_difference e_key (n_enums t) (n_enums s).
  Let struct_create := od_difference s_key (n_structs t) (n_structs s).
  Let table_create := od_difference t_key (n_tables t) (n_tables s).
  Let enum_drop := od_difference e_key (n_enums s) (n_enums t).
  Let struct_drop := od_difference s_key (n_structs s) (n_structs t).
  Let table_drop := od_difference t_key (n_tables s) (n_tables t).
  Let same (e : enumt) := List.filter (fun tb => qid_eqb (e_name e) (t_name tb)) table_create.
  Let softs := flat_map (fun e => map (fun _ => e) (same e)) enum_drop.
  Definition dropped_soft (e : enumt) : Prop := In e (n_enums s) /\ Tt (e_key e).

  Lemma scope_key n q : ns_wf d n -> In q (ns_names n) -> key_of q = (n_name n, local_id q).
  Proof. intros W I. rewrite <- (nw_scope _ _ W q I). reflexivity. Qed.
  Lemma ek_s e : In e (n_enums s) -> ek e = (nm, e_key e).
  Proof. intros I. apply scope_key; [exact Ws|]. unfold ns_names. apply in_or_app. left. now apply in_map. Qed.
  Lemma ek_t e : In e (n_enums t) -> ek e = (nm, e_key e).
  Proof. intros I. unfold ek. rewrite (scope_key t); [now rewrite Nm|exact Wt|]. unfold ns_names. apply in_or_app. left. now apply in_map. Qed.
  Lemma sk_s e : In e (n_structs s) -> sk e = (nm, s_key e).
  Proof. intros I. apply scope_key; [exact Ws|]. unfold ns_names. apply in_or_app. right. apply in_or_app. left. now apply in_map. Qed.
  Lemma sk_t e : In e (n_structs t) -> sk e = (nm, s_key e).
  Proof. intros I. unfold sk. rewrite (scope_key t); [now rewrite Nm|exact Wt|]. unfold ns_names. apply in_or_app. right. apply in_or_app. left. now apply in_map. Qed.
  Lemma tk_s e : In e (n_tables s) -> tk e = (nm, t_key e).
  Proof. intros I. apply scope_key; [exact Ws|]. unfold ns_names. apply in_or_app. right. apply in_or_app. right. now apply in_map. Qed.
  Lemma tk_t e : In e (n_tables t) -> tk e = (nm, t_key e).
  Proof. intros I. unfold tk. rewrite (scope_key t); [now rewrite Nm|exact Wt|]. unfold ns_names. apply in_or_app. right. apply in_or_app. right. now apply in_map. Qed.

  Lemma wf_names n : ns_wf d n -> base.NoDup (map e_key (n_enums n) ++ map s_key (n_structs n) ++ map t_key (n_tables n)).
  Proof.
    intros W. assert (H := nw_keys _ _ W). unfold ns_names in H. rewrite !map_app, !map_map in H. exact H.
  Qed.
  Lemma excl n :
    (Es n -> ~ Ss n) /\ (Es n -> ~ Ts n) /\ (Ss n -> ~ Ts n) /\ (Et n -> ~ St n) /\ (Et n -> ~ Tt n) /\ (St n -> ~ Tt n)
    /\ (Es n -> ~ St n) /\ (Ss n -> ~ Et n) /\ (Ss n -> ~ Tt n) /\ (Ts n -> ~ Et n) /\ (Ts n -> ~ St n).
  Proof.
    destruct (nodup_app3 _ _ _ (wf_names s Ws)) as (_ & _ & _ & A1 & A2 & A3).
    destruct (nodup_app3 _ _ _ (wf_names t Wt)) as (_ & _ & _ & B1 & B2 & B3).
    repeat split; try (unfold Es, Ss, Ts, Et, St, Tt; auto; fail).
    - intros H1 H2. apply in_map_iff in H1 as (e & <- & I1). apply in_map_iff in H2 as (x & E & I2). now apply (nc_enum_kind _ _ _ C e x).
    - intros H1. apply in_map_iff in H1 as (e & <- & I1). now apply (nc_struct_kind _ _ _ C e).
    - intros H1. apply in_map_iff in H1 as (e & <- & I1). now apply (nc_struct_kind _ _ _ C e).
    - intros H1. apply in_map_iff in H1 as (e & <- & I1). now apply (nc_table_kind _ _ _ C e).
    - intros H1. apply in_map_iff in H1 as (e & <- & I1). now apply (nc_table_kind _ _ _ C e).
  Qed.

  (** *** soft-dropped enumerations *)
  Lemma in_softs e : In e softs <-> dropped_soft e.
  Proof.
    unfold softs, dropped_soft. rewrite in_flat_map. split.
    - intros (x & Ix & H). apply in_map_iff in H as (tb & <- & H). unfold same in H. apply filter_In in H as [H Q].
      apply qid_eqb_eq in Q. apply difference_in in Ix as [Ix _]. apply difference_in in H as [H _].
      split; [exact Ix|]. unfold Tt, e_key. rewrite Q. now apply (in_map t_key).
    - intros [Ie H]. apply in_map_iff in H as (x & E & Ix). exists e.
      assert (Hes : Es (e_key e)) by now apply in_map.
      assert (Htt : Tt (e_key e)) by (rewrite <- E; now apply in_map).
      destruct (excl (e_key e)) as (X1 & X2 & X3 & X4 & X5 & X6 & X7 & X8 & X9 & X10 & X11).
      split; [apply difference_in; split; [exact Ie|]; change (~ Et (e_key e)); tauto|].
      apply in_map_iff. exists x. split; [reflexivity|]. unfold same. apply filter_In. split.
      + apply difference_in. split; [exact Ix|]. rewrite E. change (~ Ts (e_key e)). tauto.
      + apply qid_eqb_eq. now apply (nc_ids _ _ _ C e x).
  Qed.
  Lemma nodup_flat_le1 {A B} (f : A -> B) (g : A -> list A) l :
    base.NoDup (map f l) -> (forall x, g x = [] \/ g x = [x]) -> base.NoDup (map f (flat_map g l)).
  Proof.
    intros W H. induction l as [|x l IH]; [constructor|]. simpl in *. apply NoDup_cons in W as [N W]. specialize (IH W).
    destruct (H x) as [Hx|Hx]; rewrite Hx; [exact IH|]. simpl. constructor; [|exact IH]. intros Z. apply N. apply elem_of_list_In. apply elem_of_list_In in Z.
    apply in_map_iff in Z as (y & E & Z). apply in_flat_map in Z as (z & Iz & Z). rewrite <- E.
    destruct (H z) as [Hz|Hz]; rewrite Hz in Z; [contradiction|]. destruct Z as [<-|[]]. now apply in_map.
  Qed.
  Lemma same_le1 e : map (fun _ : table => e) (same e) = [] \/ map (fun _ : table => e) (same e) = [e].
  Proof.
    unfold same. assert (W : base.NoDup (map t_key table_create)).
    { apply nodup_map_filter. destruct (nodup_app3 _ _ _ (wf_names t Wt)) as (_ & _ & A & _). exact A. }
    assert (H : base.NoDup (map t_key (List.filter (fun tb => qid_eqb (e_name e) (t_name tb)) table_create))) by now apply nodup_map_filter.
    destruct (List.filter (fun tb => qid_eqb (e_name e) (t_name tb)) table_create) as [|x [|y r]] eqn:Q; [now left|now right|]. exfalso.
    assert (I : forall z, In z (x :: y :: r) -> e_name e = t_name z).
    { intros z Iz. rewrite <- Q in Iz. apply filter_In in Iz as [_ Iz]. now apply qid_eqb_eq in Iz. }
    simpl in H. apply NoDup_cons in H as [H _]. apply H. apply elem_of_list_In. left. unfold t_key.
    rewrite <- (I x), <- (I y); [reflexivity|right; now left|now left].
  Qed.
  Definition Dl n := exists e, dropped_soft e /\ n = deleted (e_key e).

  (** *** distinct keys of the phases *)
  Lemma nd_e n : ns_wf d n -> base.NoDup (map e_key (n_enums n)).
  Proof. intros W. now destruct (nodup_app3 _ _ _ (wf_names n W)) as (A & _). Qed.
  Lemma nd_s n : ns_wf d n -> base.NoDup (map s_key (n_structs n)).
  Proof. intros W. now destruct (nodup_app3 _ _ _ (wf_names n W)) as (_ & A & _). Qed.
  Lemma nd_t n : ns_wf d n -> base.NoDup (map t_key (n_tables n)).
  Proof. intros W. now destruct (nodup_app3 _ _ _ (wf_names n W)) as (_ & _ & A & _). Qed.

  Lemma kp_ec : map ek enum_create = map (pr nm) (map e_key enum_create).
  Proof. apply map_pair_keys. intros x I. apply difference_in in I as [I _]. now apply ek_t. Qed.
  Lemma kp_sc : map sk struct_create = map (pr nm) (map s_key struct_create).
  Proof. apply map_pair_keys. intros x I. apply difference_in in I as [I _]. now apply sk_t. Qed.
  Lemma kp_tc : map tk table_create = map (pr nm) (map t_key table_create).
  Proof. apply map_pair_keys. intros x I. apply difference_in in I as [I _]. now apply tk_t. Qed.
  Lemma kp_soft : map ek softs = map (pr nm) (map e_key softs).
  Proof. apply map_pair_keys. intros x I. apply in_softs in I as [I _]. now apply ek_s. Qed.
  Lemma kp_del : map del softs = map (pr nm) (map (fun e => deleted (e_key e)) softs).
  Proof. apply map_pair_keys. intros x I. apply in_softs in I as [I _]. unfold del. change (key_of (e_name x)) with (ek x). now rewrite (ek_s x I). Qed.
  Lemma kp_em : map (fun p => ek (fst p)) (od_intersection e_key (n_enums s) (n_enums t)) = map (pr nm) (map (fun p => e_key (fst p)) (od_intersection e_key (n_enums s) (n_enums t))).
  Proof. apply map_pair_keys. intros [x y] I. apply intersection_same in I as [I _]. now apply ek_s. Qed.
  Lemma kp_sm : map (fun p => sk (fst p)) (od_intersection s_key (n_structs s) (n_structs t)) = map (pr nm) (map (fun p => s_key (fst p)) (od_intersection s_key (n_structs s) (n_structs t))).
  Proof. apply map_pair_keys. intros [x y] I. apply intersection_same in I as [I _]. now apply sk_s. Qed.
  Lemma kp_tm : map (fun p => tk (fst p)) (od_intersection t_key (n_tables s) (n_tables t)) = map (pr nm) (map (fun p => t_key (fst p)) (od_intersection t_key (n_tables s) (n_tables t))).
  Proof. apply map_pair_keys. intros [x y] I. apply intersection_same in I as [I _]. now apply tk_s. Qed.
  Definition onlyif {A} (b : bool) (l : list A) : list A := if b then l else [].
  Lemma in_onlyif {A} b (l : list A) x : In x (onlyif b l) <-> b = true /\ In x l.
  Proof. destruct b; simpl; [tauto|]. split; [intros []|intros [? _]; discriminate]. Qed.
  Lemma map_onlyif {A B} (f : A -> B) b l : map f (onlyif b l) = onlyif b (map f l).
  Proof. now destruct b. Qed.
  Lemma kp_td b : map tk (onlyif b table_drop) = map (pr nm) (map t_key (onlyif b table_drop)).
  Proof. apply map_pair_keys. intros x I. apply in_onlyif in I as [_ I]. apply difference_in in I as [I _]. now apply tk_s. Qed.
  Lemma kp_sd b : map sk (onlyif b struct_drop) = map (pr nm) (map s_key (onlyif b struct_drop)).
  Proof. apply map_pair_keys. intros x I. apply in_onlyif in I as [_ I]. apply difference_in in I as [I _]. now apply sk_s. Qed.
  (** the type that is dropped for an enumeration *)
  Definition xkey (e : enumt) : string := if existsb (enum_eqb e) softs then deleted (e_key e) else e_key e.
  Definition xk (e : enumt) : okey := if existsb (enum_eqb e) softs then del e else ek e.
  Lemma existsb_softs e : existsb (enum_eqb e) softs = true <-> dropped_soft e.
  Proof.
    rewrite existsb_exists, <- in_softs. split; [|intros I; exists e; split; [exact I|now apply enum_eqb_eq]].
    intros (x & Ix & E). apply enum_eqb_eq in E. now subst.
  Qed.
  Lemma kp_ed b : map xk (onlyif b enum_drop) = map (pr nm) (map xkey (onlyif b enum_drop)).
  Proof.
    apply map_pair_keys. intros x I. apply in_onlyif in I as [_ I]. apply difference_in in I as [I _]. unfold xk, xkey.
    destruct (existsb (enum_eqb x) softs); [|now apply ek_s]. unfold del. change (key_of (e_name x)) with (ek x). now rewrite (ek_s x I).
  Qed.

  (** *** membership *)
  Lemma m_ec n : In (nm, n) (map ek enum_create) <-> Et n /\ ~ Es n.
  Proof. rewrite kp_ec, in_pair. apply in_diff_keys. Qed.
  Lemma m_sc n : In (nm, n) (map sk struct_create) <-> St n /\ ~ Ss n.
  Proof. rewrite kp_sc, in_pair. apply in_diff_keys. Qed.
  Lemma m_tc n : In (nm, n) (map tk table_create) <-> Tt n /\ ~ Ts n.
  Proof. rewrite kp_tc, in_pair. apply in_diff_keys. Qed.
  Lemma m_soft n : In (nm, n) (map ek softs) <-> Es n /\ Tt n.
  Proof.
    rewrite kp_soft, in_pair, in_map_iff. split.
    - intros (e & <- & I). apply in_softs in I as [I1 I2]. split; [now apply in_map|exact I2].
    - intros [H1 H2]. apply in_map_iff in H1 as (e & <- & H1). exists e. split; [reflexivity|]. apply in_softs. now split.
  Qed.
  Lemma m_del n : In (nm, n) (map del softs) <-> Dl n.
  Proof.
    rewrite kp_del, in_pair, in_map_iff. split; intros (e & H1 & H2).
    - exists e. split; [now apply in_softs|now symmetry].
    - exists e. split; [now symmetry|now apply in_softs].
  Qed.
  Lemma m_em n : In (nm, n) (map (fun p => ek (fst p)) (od_intersection e_key (n_enums s) (n_enums t))) <-> Es n /\ Et n.
  Proof. rewrite kp_em, in_pair. apply in_inter_keys. Qed.
  Lemma m_sm n : In (nm, n) (map (fun p => sk (fst p)) (od_intersection s_key (n_structs s) (n_structs t))) <-> Ss n /\ St n.
  Proof. rewrite kp_sm, in_pair. apply in_inter_keys. Qed.
  Lemma m_tm n : In (nm, n) (map (fun p => tk (fst p)) (od_intersection t_key (n_tables s) (n_tables t))) <-> Ts n /\ Tt n.
  Proof. rewrite kp_tm, in_pair. apply in_inter_keys. Qed.
  Lemma m_td b n : In (nm, n) (map tk (onlyif b table_drop)) <-> b = true /\ Ts n /\ ~ Tt n.
  Proof. rewrite kp_td, in_pair, map_onlyif, in_onlyif. unfold table_drop. rewrite in_diff_keys. reflexivity. Qed.
  Lemma m_sd b n : In (nm, n) (map sk (onlyif b struct_drop)) <-> b = true /\ Ss n /\ ~ St n.
  Proof. rewrite kp_sd, in_pair, map_onlyif, in_onlyif. unfold struct_drop. rewrite in_diff_keys. reflexivity. Qed.
  Lemma m_ed b n : In (nm, n) (map xk (onlyif b enum_drop)) <-> b = true /\ (Es n /\ ~ Et n /\ ~ Tt n \/ Dl n).
  Proof.
    rewrite kp_ed, in_pair, map_onlyif, in_onlyif, in_map_iff. split; intros [H1 H2]; (split; [exact H1|]).
    - destruct H2 as (e & <- & I). apply difference_in in I as [I N]. unfold xkey. destruct (existsb (enum_eqb e) softs) eqn:Q.
      + right. apply existsb_softs in Q. exists e. auto.
      + left. split; [now apply in_map|]. split; [exact N|]. intros HT.
        assert (Z : dropped_soft e) by (split; assumption). apply existsb_softs in Z. congruence.
    - destruct H2 as [(H2 & H3 & H4)|(e & He & ->)].
      + apply in_map_iff in H2 as (e & <- & I). exists e. split; [|apply difference_in; auto].
        unfold xkey. destruct (existsb (enum_eqb e) softs) eqn:Q; [|reflexivity]. apply existsb_softs in Q as [_ Q]. contradiction.
      + exists e. split; [unfold xkey; now rewrite (proj2 (existsb_softs e) He)|]. destruct He as [I H].
        apply difference_in. split; [exact I|]. assert (Z : Es (e_key e)) by now apply in_map. destruct (excl (e_key e)). change (~ Et (e_key e)). tauto.
  Qed.

  (** *** the statements *)
  Variables (K : okey -> Prop) (Sc : gset string) (P : asrt) (D0 : db).
  Hypothesis HSc : nm = ""%string \/ nm ∈ Sc.
  Hypothesis HF : forall ty, In ty (types_of t) -> free K ty.
  Hypothesis HK : forall e, dropped_soft e -> K (ek e).
  Hypothesis L : ns_like d s t D0.
  Hypothesis Hnew : forall q, In q (ns_names t) -> ~ In (local_id q) (map local_id (ns_names s)) -> db_objs D0 !! key_of q = None.
  Hypothesis Hdel : forall e, dropped_soft e -> ~ In (deleted (e_key e)) (map local_id (ns_names t)) /\ gobj D0 (nm, deleted (e_key e)) = None.
  Hypothesis HP : sta K P.
  Hypothesis HP0 : forall n v, P (nm, n) v -> soft K (gobj D0 (nm, n)) v.

  Lemma names_s n : In n (map local_id (ns_names s)) <-> Es n \/ Ss n \/ Ts n.
  Proof. unfold ns_names. rewrite !map_app, !map_map, !in_app_iff. reflexivity. Qed.
  Lemma names_t n : In n (map local_id (ns_names t)) <-> Et n \/ St n \/ Tt n.
  Proof. unfold ns_names. rewrite !map_app, !map_map, !in_app_iff. reflexivity. Qed.
  Lemma like_some n : Es n \/ Ss n \/ Ts n -> gobj D0 (nm, n) <> None.
  Proof.
    unfold gobj. intros [H|[H|H]]; apply in_map_iff in H as (x & <- & I).
    - rewrite <- (ek_s x I). unfold ek. rewrite (nl_enum _ _ _ _ L x I). discriminate.
    - rewrite <- (sk_s x I). destruct (nl_struct _ _ _ _ L x I) as (ms & H & _). unfold sk. rewrite H. discriminate.
    - rewrite <- (tk_s x I). destruct (nl_table _ _ _ _ L x I) as (ms & H & _). unfold tk. rewrite H. discriminate.
  Qed.
  Lemma excl_del n : Dl n -> ~ Es n /\ ~ Ss n /\ ~ Ts n /\ ~ Et n /\ ~ St n /\ ~ Tt n.
  Proof.
    intros (e & He & ->). destruct (Hdel e He) as [H1 H2].
    assert (H3 := names_t (deleted (e_key e))). assert (H4 := like_some (deleted (e_key e))).
    assert (H5 : ~ (Es (deleted (e_key e)) \/ Ss (deleted (e_key e)) \/ Ts (deleted (e_key e)))) by (intros Z; now apply (H4 Z)). tauto.
  Qed.
  Lemma new_none n : Et n \/ St n \/ Tt n -> ~ Es n -> ~ Ss n -> ~ Ts n -> gobj D0 (nm, n) = None.
  Proof.
    intros H N1 N2 N3. assert (Hn : In n (map local_id (ns_names t))) by now apply names_t.
    apply in_map_iff in Hn as (q & <- & I). rewrite <- Nm, <- (scope_key t q Wt I). apply Hnew; [exact I|]. rewrite names_s. tauto.
  Qed.

  (** the assertions after each phase *)
  Let A1 := after ek (fun e v => v = Some (want_enum e)) enum_create P.
  Let A2 := after sk (fun x v => v = Some (want_struct d x)) struct_create A1.
  Let A3 := renamed softs A2.
  Let A4 := after tk (fun x v => v = Some (OTable (bare d x))) table_create A3.
  Let A5 := after tk (fun x v => v = Some (OTable (want_tab d x))) table_create A4.
  Let A6 := after (fun p => ek (fst p)) (fun p v => v = Some (want_enum (snd p))) (od_intersection e_key (n_enums s) (n_enums t)) A5.
  Let A7 := after (fun p => sk (fst p)) (fun p v => v = Some (want_struct d (snd p))) (od_intersection s_key (n_structs s) (n_structs t)) A6.
  Let A8 := after (fun p => tk (fst p)) (fun p v => v = Some (OTable (want_tab d (snd p)))) (od_intersection t_key (n_tables s) (n_tables t)) A7.
  Let A9 := after tk (fun _ v => v = None) (onlyif (allow_drop_table o) table_drop) A8.
  Let A10 := after sk (fun _ v => v = None) (onlyif (allow_drop_struct o) struct_drop) A9.
  Let A11 := after xk (fun _ v => v = None) (onlyif (allow_drop_enum o) enum_drop) A10.

  Lemma fr_struct x c : In x (n_structs t) -> In c (s_members x) -> free K (m_type c).
  Proof. intros I J. apply HF. unfold types_of. apply in_or_app. left. apply in_flat_map. exists x. split; [exact I|now apply in_map]. Qed.
  Lemma fr_table x c : In x (n_tables t) -> In c (t_columns x) -> free K (c_type c).
  Proof. intros I J. apply HF. unfold types_of. apply in_or_app. right. apply in_flat_map. exists x. split; [exact I|now apply in_map]. Qed.
  Lemma st_exact x : free_obj K x -> st1 K (fun v => v = Some x).
  Proof. intros Hf v v' Hs Hv. now apply (stable_exact K x v v'). Qed.
  Lemma sta1 : sta K A1.
  Proof. apply sta_after; [|exact HP]. intros x _. apply st_exact. apply free_want_enum. Qed.
  Lemma sta2 : sta K A2.
  Proof. apply sta_after; [|exact sta1]. intros x I. apply difference_in in I as [I _]. apply st_exact. apply free_want_struct. intros c. now apply fr_struct. Qed.

  (** peeling of phases for the object called [n] *)
  Lemma p1 n v : ~ (Et n /\ ~ Es n) -> A1 (nm, n) v -> P (nm, n) v.
  Proof. intros H. apply after_out. now rewrite m_ec. Qed.
  Lemma p2 n v : ~ (St n /\ ~ Ss n) -> A2 (nm, n) v -> A1 (nm, n) v.
  Proof. intros H. apply after_out. now rewrite m_sc. Qed.
  Lemma p3 n v : ~ (Es n /\ Tt n) -> ~ Dl n -> A3 (nm, n) v -> A2 (nm, n) v.
  Proof. intros H1 H2 (_ & _ & H). apply H; [now rewrite m_soft|now rewrite m_del]. Qed.
  Lemma p4 n v : ~ (Tt n /\ ~ Ts n) -> A4 (nm, n) v -> A3 (nm, n) v.
  Proof. intros H. apply after_out. now rewrite m_tc. Qed.
  Lemma p5 n v : ~ (Tt n /\ ~ Ts n) -> A5 (nm, n) v -> A4 (nm, n) v.
  Proof. intros H. apply after_out. now rewrite m_tc. Qed.
  Lemma p6 n v : ~ (Es n /\ Et n) -> A6 (nm, n) v -> A5 (nm, n) v.
  Proof. intros H. apply after_out. now rewrite m_em. Qed.
  Lemma p7 n v : ~ (Ss n /\ St n) -> A7 (nm, n) v -> A6 (nm, n) v.
  Proof. intros H. apply after_out. now rewrite m_sm. Qed.
  Lemma p8 n v : ~ (Ts n /\ Tt n) -> A8 (nm, n) v -> A7 (nm, n) v.
  Proof. intros H. apply after_out. now rewrite m_tm. Qed.
  Lemma p9 n v : ~ (allow_drop_table o = true /\ Ts n /\ ~ Tt n) -> A9 (nm, n) v -> A8 (nm, n) v.
  Proof. intros H. apply after_out. now rewrite m_td. Qed.
  Lemma p10 n v : ~ (allow_drop_struct o = true /\ Ss n /\ ~ St n) -> A10 (nm, n) v -> A9 (nm, n) v.
  Proof. intros H. apply after_out. now rewrite m_sd. Qed.
  Lemma p11 n v : ~ (allow_drop_enum o = true /\ (Es n /\ ~ Et n /\ ~ Tt n \/ Dl n)) -> A11 (nm, n) v -> A10 (nm, n) v.
  Proof. intros H. apply after_out. now rewrite m_ed. Qed.
  Ltac ex n := let a := fresh "X" in let b := fresh "X" in assert (a := excl n); assert (b := excl_del n).

  Lemma schema_nm D n : db_schemas D = Sc -> schema_ok D (nm, n) = true.
  Proof. intros HS. unfold schema_ok. cbn [fst]. rewrite HS. destruct HSc as [->|H]; [reflexivity|]. rewrite bool_decide_true by exact H. apply orb_true_r. Qed.

  Lemma ph1 : tri (engine_of d) Sc P (map create_enum enum_create) A1.
  Proof.
    rewrite map_concat_single. apply (tri_phase (engine_of d) Sc ek (fun e => [create_enum e])).
    { rewrite kp_ec. apply nodup_pair, nodup_map_filter, nd_e. exact Wt. }
    intros x D I HS Hx. apply difference_in in I as [I N]. rewrite (ek_t x I) in *. exists (Some (want_enum x)). split; [|reflexivity].
    cbn [exec_all]. assert (Hn : gobj D (nm, e_key x) = None).
    { apply HP0 in Hx. apply (soft_none K). rewrite <- (new_none (e_key x)); [exact Hx| | | |]; ex (e_key x);
      assert (Et (e_key x)) by (now apply in_map); unfold Es; tauto. }
    assert (Hk : ek x = (nm, e_key x)) by now apply ek_t. unfold ek in Hk.
    rewrite create_enum_exec.
    - now rewrite Hk.
    - exact (nw_enum _ _ Wt x I).
    - rewrite Hk. exact Hn.
    - rewrite Hk. now apply schema_nm.
  Qed.
  Lemma ph2 l : concat_res (create_struct d) struct_create = Ok l -> tri (engine_of d) Sc A1 l A2.
  Proof.
    intros H. apply concat_res_ok in H as [H ->]. apply (tri_phase (engine_of d) Sc sk (fun x => ok_or [] (create_struct d x))).
    { rewrite kp_sc. apply nodup_pair, nodup_map_filter, nd_s. exact Wt. }
    intros x D I HS Hx. destruct (H x I) as [y Hy]. apply difference_in in I as [I N]. rewrite (sk_t x I) in *. exists (Some (want_struct d x)). split; [|reflexivity].
    assert (Hn : gobj D (nm, s_key x) = None).
    { ex (s_key x). assert (St (s_key x)) by (now apply in_map). apply p1 in Hx; [|tauto]. apply HP0 in Hx. apply (soft_none K). rewrite <- (new_none (s_key x)); [exact Hx| | | |]; unfold Ss; tauto. }
    assert (Hk : sk x = (nm, s_key x)) by now apply sk_t. unfold sk in Hk. rewrite Hy. cbn [ok_or].
    rewrite (create_struct_exec _ d x y D Hy).
    - now rewrite Hk.
    - exact (nw_struct _ _ Wt x I).
    - rewrite Hk. exact Hn.
    - rewrite Hk. now apply schema_nm.
  Qed.
  Lemma ph3 : tri (engine_of d) Sc A2 (map soft_drop_enum softs) A3.
  Proof.
    apply (tri_soft (engine_of d) Sc K).
    - rewrite kp_soft. apply nodup_pair. apply nodup_flat_le1; [|exact same_le1]. apply nodup_map_filter, nd_e. exact Ws.
    - intros e e' I I' H. assert (I1 : In (del e) (map del softs)) by now apply in_map. apply (in_map ek) in I'. rewrite <- H in I'.
      apply in_softs in I as [I _]. unfold del in *. change (key_of (e_name e)) with (ek e) in *. rewrite (ek_s e I) in *. cbn [fst] in *.
      apply m_del in I1. apply m_soft in I'. apply excl_del in I1. tauto.
    - intros e I. apply HK. now apply in_softs.
    - exact sta2.
    - intros e v I Hv. apply in_softs in I as [I J]. rewrite (ek_s e I) in Hv. ex (e_key e). assert (Es (e_key e)) by now apply in_map.
      apply p2 in Hv; [|tauto]. apply p1 in Hv; [|tauto]. apply HP0 in Hv. eapply (stable_type K); [exact Hv|].
      exists (want_enum e). split; [|reflexivity]. unfold gobj. rewrite <- (ek_s e I). exact (nl_enum _ _ _ _ L e I).
    - intros e v I Hv. apply in_softs in I. assert (J := I). destruct J as [J _]. unfold del in Hv. change (key_of (e_name e)) with (ek e) in Hv. rewrite (ek_s e J) in Hv. cbn [fst] in Hv.
      change (local_id (e_name e)) with (e_key e) in Hv. assert (Z : Dl (deleted (e_key e))) by (exists e; auto). apply excl_del in Z.
      apply p2 in Hv; [|tauto]. apply p1 in Hv; [|tauto]. apply HP0 in Hv. apply (soft_none K). destruct (Hdel e I) as [_ Q]. now rewrite Q in Hv.
  Qed.
  Lemma ph4 l : concat_res (create_table d) table_create = Ok l -> tri (engine_of d) Sc A3 l A4.
  Proof.
    intros H. apply concat_res_ok in H as [H ->]. apply (tri_phase (engine_of d) Sc tk (fun x => ok_or [] (create_table d x))).
    { rewrite kp_tc. apply nodup_pair, nodup_map_filter, nd_t. exact Wt. }
    intros x D I HS Hx. destruct (H x I) as [y Hy]. apply difference_in in I as [I N]. rewrite (tk_t x I) in *. exists (Some (OTable (bare d x))). split; [|reflexivity].
    assert (Hn : gobj D (nm, t_key x) = None).
    { ex (t_key x). assert (HT : Tt (t_key x)) by (now apply in_map).
      destruct (in_dec string_dec (t_key x) (map e_key (n_enums s))) as [He|He].
      - destruct Hx as (Hx & _ & _). assert (Hm := proj2 (m_soft (t_key x)) (conj He HT)). apply in_map_iff in Hm as (e & E1 & E2). now apply (Hx e).
      - apply p3 in Hx; [|unfold Es; tauto|tauto]. apply p2 in Hx; [|tauto]. apply p1 in Hx; [|tauto]. apply HP0 in Hx. apply (soft_none K). rewrite <- (new_none (t_key x)); [exact Hx| | | |]; unfold Ts, Es; tauto. }
    assert (Hk : tk x = (nm, t_key x)) by now apply tk_t. unfold tk in Hk. rewrite Hy. cbn [ok_or].
    rewrite (create_table_exec _ d x y D Hy).
    - now rewrite Hk.
    - exact (nw_table _ _ Wt x I).
    - rewrite Hk. exact Hn.
    - rewrite Hk. now apply schema_nm.
  Qed.
  Lemma ph5 : tri (engine_of d) Sc A4 (flat_map (add_constraints d) table_create) A5.
  Proof.
    rewrite flat_map_concat_map. apply (tri_phase (engine_of d) Sc tk (add_constraints d)).
    { rewrite kp_tc. apply nodup_pair, nodup_map_filter, nd_t. exact Wt. }
    intros x D I HS Hx. apply (after_in tk _ _ _ x _ I) in Hx. exists (Some (OTable (want_tab d x))). split; [|reflexivity].
    apply difference_in in I as [I _]. apply add_constraints_exec; [exact (nw_table _ _ Wt x I)|exact Hx].
  Qed.
  Lemma ph6 l : concat_res (fun p => mutate_enum (fst p) (snd p)) (od_intersection e_key (n_enums s) (n_enums t)) = Ok l ->
    tri (engine_of d) Sc A5 l A6.
  Proof.
    intros H. apply concat_res_ok in H as [H ->]. apply (tri_phase (engine_of d) Sc (fun p => ek (fst p)) (fun p => ok_or [] (mutate_enum (fst p) (snd p)))).
    { rewrite kp_em. apply nodup_pair, intersection_keys_nodup, nd_e. exact Ws. }
    intros [x y] D I HS Hx. destruct (H _ I) as [z Hz]. apply intersection_same in I as (I1 & I2 & I3). cbn [fst snd] in *. rewrite Hz. cbn [ok_or].
    exists (Some (want_enum y)). split; [|reflexivity].
    assert (He : ek x = ek y) by (rewrite (ek_s x I1), (ek_t y I2); congruence).
    rewrite He. rewrite (mutate_enum_exec _ x y z D Hz); [reflexivity|exact (nw_enum _ _ Wt y I2)|].
    rewrite (ek_s x I1) in Hx. ex (e_key x). assert (HE : Es (e_key x)) by now apply in_map. assert (HT : Et (e_key x)) by (rewrite I3; now apply in_map).
    apply p5 in Hx; [|tauto]. apply p4 in Hx; [|tauto]. apply p3 in Hx; [|tauto|tauto]. apply p2 in Hx; [|tauto]. apply p1 in Hx; [|tauto]. apply HP0 in Hx.
    rewrite <- (ek_s x I1) in Hx. unfold gobj, ek in Hx. rewrite (nl_enum _ _ _ _ L x I1) in Hx. apply (soft_free K) in Hx; [exact Hx|exact I].
  Qed.
  Lemma ph7 l : concat_res (fun p => mutate_struct d (fst p) (snd p)) (od_intersection s_key (n_structs s) (n_structs t)) = Ok l ->
    tri (engine_of d) Sc A6 l A7.
  Proof.
    intros H. apply concat_res_ok in H as [H ->]. apply (tri_phase (engine_of d) Sc (fun p => sk (fst p)) (fun p => ok_or [] (mutate_struct d (fst p) (snd p)))).
    { rewrite kp_sm. apply nodup_pair, intersection_keys_nodup, nd_s. exact Ws. }
    intros [x y] D I HS Hx. destruct (H _ I) as [z Hz]. apply intersection_same in I as (I1 & I2 & I3). cbn [fst snd] in *. rewrite Hz. cbn [ok_or].
    exists (Some (want_struct d y)). split; [|reflexivity].
    assert (He : sk x = sk y) by (rewrite (sk_s x I1), (sk_t y I2); congruence).
    assert (Hl : p_structlike d x y (gobj D (sk x))).
    { rewrite (sk_s x I1) in Hx. ex (s_key x). assert (HE : Ss (s_key x)) by now apply in_map. assert (HT : St (s_key x)) by (rewrite I3; now apply in_map).
      apply p6 in Hx; [|tauto]. apply p5 in Hx; [|tauto]. apply p4 in Hx; [|tauto]. apply p3 in Hx; [|tauto|tauto]. apply p2 in Hx; [|tauto]. apply p1 in Hx; [|tauto]. apply HP0 in Hx.
      rewrite <- (sk_s x I1) in Hx. eapply (stable_structlike K); [|exact Hx|]; [intros c; now apply fr_struct|].
      destruct (nl_struct _ _ _ _ L x I1) as (ms & Q1 & Q2). exists ms. split; [exact Q1|]. apply Q2; [exact I2|congruence]. }
    destruct Hl as (ms & Q1 & Q2). rewrite He.
    apply (mutate_struct_exec _ d x y z ms D Hz); [exact (nw_struct _ _ Ws x I1)|exact (nw_struct _ _ Wt y I2)|exact Q2|exact Q1].
  Qed.
  Lemma ph8 l : concat_res (fun p => mutate_table d (fst p) (snd p)) (od_intersection t_key (n_tables s) (n_tables t)) = Ok l ->
    tri (engine_of d) Sc A7 l A8.
  Proof.
    intros H. apply concat_res_ok in H as [H ->]. apply (tri_phase (engine_of d) Sc (fun p => tk (fst p)) (fun p => ok_or [] (mutate_table d (fst p) (snd p)))).
    { rewrite kp_tm. apply nodup_pair, intersection_keys_nodup, nd_t. exact Ws. }
    intros [x y] D I HS Hx. destruct (H _ I) as [z Hz]. apply intersection_same in I as (I1 & I2 & I3). cbn [fst snd] in *. rewrite Hz. cbn [ok_or].
    exists (Some (OTable (want_tab d y))). split; [|reflexivity].
    assert (He : tk x = tk y) by (rewrite (tk_s x I1), (tk_t y I2); congruence).
    assert (Hl : p_tablelike d x y (gobj D (tk x))).
    { rewrite (tk_s x I1) in Hx. ex (t_key x). assert (HE : Ts (t_key x)) by now apply in_map. assert (HT : Tt (t_key x)) by (rewrite I3; now apply in_map).
      apply p7 in Hx; [|tauto]. apply p6 in Hx; [|tauto]. apply p5 in Hx; [|tauto]. apply p4 in Hx; [|tauto]. apply p3 in Hx; [|tauto|tauto]. apply p2 in Hx; [|tauto]. apply p1 in Hx; [|tauto]. apply HP0 in Hx.
      rewrite <- (tk_s x I1) in Hx. eapply (stable_tablelike K); [|exact Hx|]; [intros c; now apply fr_table|].
      destruct (nl_table _ _ _ _ L x I1) as (ms & Q1 & Q2). exists ms. split; [exact Q1|]. apply Q2; [exact I2|congruence]. }
    destruct Hl as (tb & Q1 & Q2). rewrite He.
    apply (mutate_table_exec d x y z tb D Hz); [exact (nw_table _ _ Ws x I1)|exact (nw_table _ _ Wt y I2)|now apply (nc_table _ _ _ C)|exact Q2|exact Q1].
  Qed.
  Lemma ph9 : tri (engine_of d) Sc A8 (map drop_table (onlyif (allow_drop_table o) table_drop)) A9.
  Proof.
    rewrite map_concat_single. apply (tri_phase (engine_of d) Sc tk (fun x => [drop_table x])).
    { rewrite kp_td. apply nodup_pair. rewrite map_onlyif. destruct (allow_drop_table o); [|constructor]. apply nodup_map_filter, nd_t. exact Ws. }
    intros x D I HS Hx. apply in_onlyif in I as [_ I]. apply difference_in in I as [I N]. exists None. split; [|reflexivity].
    assert (Hl : p_table (gobj D (tk x))).
    { rewrite (tk_s x I) in Hx. ex (t_key x). assert (HE : Ts (t_key x)) by now apply in_map.
      apply p8 in Hx; [|tauto]. apply p7 in Hx; [|tauto]. apply p6 in Hx; [|tauto]. apply p5 in Hx; [|tauto]. apply p4 in Hx; [|tauto]. apply p3 in Hx; [|tauto|tauto]. apply p2 in Hx; [|tauto]. apply p1 in Hx; [|tauto]. apply HP0 in Hx.
      rewrite <- (tk_s x I) in Hx. eapply (stable_table K); [exact Hx|]. destruct (nl_table _ _ _ _ L x I) as (ms & Q1 & _). now exists ms. }
    destruct Hl as (tb & Q). unfold gobj, tk in Q. unfold drop_table. cbn [exec_all exec]. now rewrite Q.
  Qed.
  Lemma drop_type_exec q D : p_type (gobj D (key_of q)) -> exec_all (engine_of d) [SDropType q] D = Some (set_obj (key_of q) None D).
  Proof. intros (x & Q1 & Q2). unfold gobj in Q1. cbn [exec_all exec]. rewrite Q1. cbn [mbind option_bind]. now rewrite Q2. Qed.
  Lemma ph10 : tri (engine_of d) Sc A9 (map drop_struct (onlyif (allow_drop_struct o) struct_drop)) A10.
  Proof.
    rewrite map_concat_single. apply (tri_phase (engine_of d) Sc sk (fun x => [drop_struct x])).
    { rewrite kp_sd. apply nodup_pair. rewrite map_onlyif. destruct (allow_drop_struct o); [|constructor]. apply nodup_map_filter, nd_s. exact Ws. }
    intros x D I HS Hx. apply in_onlyif in I as [_ I]. apply difference_in in I as [I N]. exists None. split; [|reflexivity].
    apply drop_type_exec. change (p_type (gobj D (sk x))).
    rewrite (sk_s x I) in Hx. ex (s_key x). assert (HE : Ss (s_key x)) by now apply in_map.
    apply p9 in Hx; [|tauto]. apply p8 in Hx; [|tauto]. apply p7 in Hx; [|tauto]. apply p6 in Hx; [|tauto]. apply p5 in Hx; [|tauto]. apply p4 in Hx; [|tauto]. apply p3 in Hx; [|tauto|tauto]. apply p2 in Hx; [|tauto]. apply p1 in Hx; [|tauto]. apply HP0 in Hx.
    rewrite <- (sk_s x I) in Hx. eapply (stable_type K); [exact Hx|]. destruct (nl_struct _ _ _ _ L x I) as (ms & Q1 & _). eexists. split; [exact Q1|reflexivity].
  Qed.
  Lemma hard_key e : In e (n_enums s) -> Tt (e_key e) -> key_of (rename_qid (e_name e) (deleted (local_id (e_name e)))) = del e.
  Proof.
    intros I H. apply in_map_iff in H as (x & E & Ix). destruct (nc_ids _ _ _ C e x I Ix) as [_ Pl]; [congruence|].
    unfold del. destruct (e_name e) as [ns n|[ns|] n|n]; simpl in *; [reflexivity|contradiction|reflexivity|reflexivity].
  Qed.
  Lemma ph11 : tri (engine_of d) Sc A10
    (map (fun e => if existsb (enum_eqb e) softs then hard_drop_enum e else drop_enum e) (onlyif (allow_drop_enum o) enum_drop)) A11.
  Proof.
    rewrite map_concat_single. apply (tri_phase (engine_of d) Sc xk (fun e => [if existsb (enum_eqb e) softs then hard_drop_enum e else drop_enum e])).
    { rewrite kp_ed. apply nodup_pair. rewrite map_onlyif. destruct (allow_drop_enum o); [|constructor]. simpl.
      assert (W : base.NoDup (map e_key enum_drop)) by (apply nodup_map_filter, nd_e; exact Ws).
      assert (G : forall l, (forall e, In e l -> In e enum_drop) -> base.NoDup (map e_key l) -> base.NoDup (map xkey l)).
      { induction l as [|e l IH]; intros Hl Wl; [constructor|]. simpl in *. apply NoDup_cons in Wl as [N Wl]. constructor; [|apply IH; auto].
        intros Z. apply elem_of_list_In in Z. apply in_map_iff in Z as (e' & E & I'). apply N. apply elem_of_list_In.
        assert (Ie : In e (n_enums s)) by (eapply difference_in; apply Hl; now left).
        assert (Ie' : In e' (n_enums s)) by (eapply difference_in; apply Hl; now right).
        assert (Hs : Es (e_key e)) by now apply in_map. assert (Hs' : Es (e_key e')) by now apply in_map.
        revert E. unfold xkey. destruct (existsb (enum_eqb e') softs) eqn:Q1, (existsb (enum_eqb e) softs) eqn:Q2; intros E.
        - apply deleted_inj in E. rewrite <- E. now apply in_map.
        - apply existsb_softs in Q1. assert (Z : Dl (e_key e)) by (exists e'; auto). apply excl_del in Z. tauto.
        - apply existsb_softs in Q2. assert (Z : Dl (e_key e')) by (exists e; auto). apply excl_del in Z. tauto.
        - rewrite <- E. now apply in_map. }
      apply G; auto. }
    intros x D I HS Hx. apply in_onlyif in I as [_ I]. apply difference_in in I as [I N]. exists None. split; [|reflexivity].
    assert (HE : Es (e_key x)) by now apply in_map. change (~ Et (e_key x)) in N.
    unfold xk in *. destruct (existsb (enum_eqb x) softs) eqn:Q.
    - apply existsb_softs in Q. assert (Q' := Q). destruct Q' as [_ HT]. rewrite <- (hard_key x I HT). apply drop_type_exec. rewrite (hard_key x I HT).
      assert (Z : Dl (deleted (e_key x))) by (exists x; auto). apply excl_del in Z. unfold del in *. change (key_of (e_name x)) with (ek x) in *.
      rewrite (ek_s x I) in *. cbn [fst] in *. change (local_id (e_name x)) with (e_key x) in *.
      apply p10 in Hx; [|tauto]. apply p9 in Hx; [|tauto]. apply p8 in Hx; [|tauto]. apply p7 in Hx; [|tauto]. apply p6 in Hx; [|tauto]. apply p5 in Hx; [|tauto]. apply p4 in Hx; [|tauto].
      destruct Hx as (_ & Hx & _). apply (Hx x); [now apply in_softs|]. unfold del. change (key_of (e_name x)) with (ek x). now rewrite (ek_s x I).
    - apply drop_type_exec. change (p_type (gobj D (ek x))). assert (NT : ~ Tt (e_key x)).
      { intros HT. assert (Z : dropped_soft x) by (split; assumption). apply existsb_softs in Z. congruence. }
      rewrite (ek_s x I) in Hx. ex (e_key x).
      apply p10 in Hx; [|tauto]. apply p9 in Hx; [|tauto]. apply p8 in Hx; [|tauto]. apply p7 in Hx; [|tauto]. apply p6 in Hx; [|tauto]. apply p5 in Hx; [|tauto]. apply p4 in Hx; [|tauto].
      apply p3 in Hx; [|tauto|tauto]. apply p2 in Hx; [|tauto]. apply p1 in Hx; [|tauto]. apply HP0 in Hx.
      rewrite <- (ek_s x I) in Hx. eapply (stable_type K); [exact Hx|]. exists (want_enum x). split; [|reflexivity]. exact (nl_enum _ _ _ _ L x I).
  Qed.
  Lemma rows_tri Q l : Forall (fun x => match x with SInsert _ _ _ _ => True | _ => False end) l -> tri (engine_of d) Sc Q l Q.
  Proof.
    induction 1 as [|x l H _ IH]; [apply tri_nil|]. intros D HS HD. destruct x; try contradiction. simpl. now apply IH.
  Qed.

  Lemma namespace_tri l : mutate_namespace d o s t = Ok l -> tri (engine_of d) Sc P l A11.
  Proof.
    intros H. unfold mutate_namespace in H. destruct (negb (String.eqb (n_name s) (n_name t))); [discriminate|].
    match type of H with bind ?z _ = _ => destruct z as [l2|] eqn:H2; simpl in H; [|discriminate] end.
    match type of H with bind ?z _ = _ => destruct z as [l4|] eqn:H4; simpl in H; [|discriminate] end.
    match type of H with bind ?z _ = _ => destruct z as [l6|] eqn:H6; simpl in H; [|discriminate] end.
    match type of H with bind ?z _ = _ => destruct z as [l7|] eqn:H7; simpl in H; [|discriminate] end.
    match type of H with bind ?z _ = _ => destruct z as [l8|] eqn:H8; simpl in H; [|discriminate] end.
    injection H as <-.
    eapply tri_app; [exact ph1|]. eapply tri_app; [exact (ph2 _ H2)|]. eapply tri_app; [exact ph3|].
    eapply tri_app; [exact (ph4 _ H4)|]. eapply tri_app; [exact ph5|].
    eapply tri_app; [apply rows_tri|].
    { apply List.Forall_forall. intros x I. apply in_flat_map in I as (e & _ & I). apply in_map_iff in I as (y & <- & _). exact Logic.I. }
    eapply tri_app; [exact (ph6 _ H6)|]. eapply tri_app; [exact (ph7 _ H7)|]. eapply tri_app; [exact (ph8 _ H8)|].
    eapply tri_app; [|eapply tri_app].
    - replace (if allow_drop_table o then _ else _) with (map drop_table (onlyif (allow_drop_table o) table_drop)) by now destruct (allow_drop_table o). exact ph9.
    - replace (if allow_drop_struct o then _ else _) with (map drop_struct (onlyif (allow_drop_struct o) struct_drop)) by now destruct (allow_drop_struct o). exact ph10.
    - replace (if allow_drop_enum o then _ else _) with (map (fun e => if existsb (enum_eqb e) softs then hard_drop_enum e else drop_enum e) (onlyif (allow_drop_enum o) enum_drop)) by now destruct (allow_drop_enum o). exact ph11.
  Qed.

  (** *** the result, by name *)
  Lemma out_keys k v : fst k <> nm -> A11 k v -> P k v.
  Proof.
    intros N H.
    apply after_out in H; [|rewrite kp_ed; intros Z; now apply in_pair_fst in Z].
    apply after_out in H; [|rewrite kp_sd; intros Z; now apply in_pair_fst in Z].
    apply after_out in H; [|rewrite kp_td; intros Z; now apply in_pair_fst in Z].
    apply after_out in H; [|rewrite kp_tm; intros Z; now apply in_pair_fst in Z].
    apply after_out in H; [|rewrite kp_sm; intros Z; now apply in_pair_fst in Z].
    apply after_out in H; [|rewrite kp_em; intros Z; now apply in_pair_fst in Z].
    apply after_out in H; [|rewrite kp_tc; intros Z; now apply in_pair_fst in Z].
    apply after_out in H; [|rewrite kp_tc; intros Z; now apply in_pair_fst in Z].
    destruct H as (_ & _ & H). specialize (H ltac:(rewrite kp_soft; intros Z; now apply in_pair_fst in Z) ltac:(rewrite kp_del; intros Z; now apply in_pair_fst in Z)).
    apply after_out in H; [|rewrite kp_sc; intros Z; now apply in_pair_fst in Z].
    apply after_out in H; [|rewrite kp_ec; intros Z; now apply in_pair_fst in Z].
    exact H.
  Qed.
  Ltac peel4 H := apply p11 in H; [|tauto]; apply p10 in H; [|tauto]; apply p9 in H; [|tauto].
  Lemma fin_enum e v : In e (n_enums t) -> A11 (ek e) v -> v = Some (want_enum e).
  Proof.
    intros I H. rewrite (ek_t e I) in H. ex (e_key e). assert (HE : Et (e_key e)) by now apply in_map.
    peel4 H. apply p8 in H; [|tauto]. apply p7 in H; [|tauto].
    destruct (in_dec string_dec (e_key e) (map e_key (n_enums s))) as [Hs|Hs].
    - apply (in_map_iff e_key) in Hs as (e' & E & I'). destruct (od_get e_key (e_key e') (n_enums t)) as [y|] eqn:G.
      + assert (Iy : In (e', y) (od_intersection e_key (n_enums s) (n_enums t))) by (apply intersection_in; auto).
        destruct H as [H _]. specialize (H _ Iy). cbn [fst snd] in H. rewrite H; [|rewrite (ek_s e' I'); congruence].
        f_equal. f_equal. rewrite E in G. rewrite (get_find_by e_key) in G.
        assert (G' : find_by e_key (e_key e) (n_enums t) = Some e) by (apply find_by_in; [apply nd_e; exact Wt|exact I]). congruence.
      + apply get_none in G. exfalso. apply G. rewrite E. now apply in_map.
    - change (~ Es (e_key e)) in Hs. apply p6 in H; [|tauto]. apply p5 in H; [|tauto]. apply p4 in H; [|tauto]. apply p3 in H; [|tauto|tauto]. apply p2 in H; [|tauto].
      destruct H as [H _]. apply H; [apply difference_in; auto|now apply ek_t].
  Qed.
  Lemma fin_struct e v : In e (n_structs t) -> A11 (sk e) v -> v = Some (want_struct d e).
  Proof.
    intros I H. rewrite (sk_t e I) in H. ex (s_key e). assert (HE : St (s_key e)) by now apply in_map.
    peel4 H. apply p8 in H; [|tauto].
    destruct (in_dec string_dec (s_key e) (map s_key (n_structs s))) as [Hs|Hs].
    - apply (in_map_iff s_key) in Hs as (e' & E & I'). destruct (od_get s_key (s_key e') (n_structs t)) as [y|] eqn:G.
      + assert (Iy : In (e', y) (od_intersection s_key (n_structs s) (n_structs t))) by (apply intersection_in; auto).
        destruct H as [H _]. specialize (H _ Iy). cbn [fst snd] in H. rewrite H; [|rewrite (sk_s e' I'); congruence].
        f_equal. f_equal. rewrite E in G. rewrite (get_find_by s_key) in G.
        assert (G' : find_by s_key (s_key e) (n_structs t) = Some e) by (apply find_by_in; [apply nd_s; exact Wt|exact I]). congruence.
      + apply get_none in G. exfalso. apply G. rewrite E. now apply in_map.
    - change (~ Ss (s_key e)) in Hs. apply p7 in H; [|tauto]. apply p6 in H; [|tauto]. apply p5 in H; [|tauto]. apply p4 in H; [|tauto]. apply p3 in H; [|tauto|tauto].
      destruct H as [H _]. apply H; [apply difference_in; auto|now apply sk_t].
  Qed.
  Lemma fin_table e v : In e (n_tables t) -> A11 (tk e) v -> v = Some (OTable (want_tab d e)).
  Proof.
    intros I H. rewrite (tk_t e I) in H. ex (t_key e). assert (HE : Tt (t_key e)) by now apply in_map.
    peel4 H.
    destruct (in_dec string_dec (t_key e) (map t_key (n_tables s))) as [Hs|Hs].
    - apply (in_map_iff t_key) in Hs as (e' & E & I'). destruct (od_get t_key (t_key e') (n_tables t)) as [y|] eqn:G.
      + assert (Iy : In (e', y) (od_intersection t_key (n_tables s) (n_tables t))) by (apply intersection_in; auto).
        destruct H as [H _]. specialize (H _ Iy). cbn [fst snd] in H. rewrite H; [|rewrite (tk_s e' I'); congruence].
        f_equal. f_equal. rewrite E in G. rewrite (get_find_by t_key) in G.
        assert (G' : find_by t_key (t_key e) (n_tables t) = Some e) by (apply find_by_in; [apply nd_t; exact Wt|exact I]). congruence.
      + apply get_none in G. exfalso. apply G. rewrite E. now apply in_map.
    - change (~ Ts (t_key e)) in Hs. apply p8 in H; [|tauto]. apply p7 in H; [|tauto]. apply p6 in H; [|tauto].
      destruct H as [H _]. apply H; [apply difference_in; auto|now apply tk_t].
  Qed.
  Lemma fin_rest n v : ~ Et n -> ~ St n -> ~ Tt n -> ~ Dl n -> (Ts n -> allow_drop_table o = false) -> (Ss n -> allow_drop_struct o = false) ->
    (Es n -> allow_drop_enum o = false) -> A11 (nm, n) v -> P (nm, n) v.
  Proof.
    intros N1 N2 N3 N4 N5 N6 N7 H. ex n.
    apply p11 in H; [|intros (Z & [Z1|Z1]); [rewrite N7 in Z by tauto; discriminate|tauto]].
    apply p10 in H; [|intros (Z & Z1 & _); rewrite N6 in Z by tauto; discriminate].
    apply p9 in H; [|intros (Z & Z1 & _); rewrite N5 in Z by tauto; discriminate].
    apply p8 in H; [|tauto]. apply p7 in H; [|tauto]. apply p6 in H; [|tauto]. apply p5 in H; [|tauto]. apply p4 in H; [|tauto]. apply p3 in H; [|tauto|tauto]. apply p2 in H; [|tauto]. now apply p1 in H; [|tauto].
  Qed.
  Lemma fin_drop n v : ~ Et n -> ~ St n -> ~ Tt n ->
    (Ts n /\ allow_drop_table o = true) \/ (Ss n /\ allow_drop_struct o = true) \/ (Es n /\ allow_drop_enum o = true) -> A11 (nm, n) v -> v = None.
  Proof.
    intros N1 N2 N3 Hd H. ex n. destruct Hd as [[Hs Ho]|[[Hs Ho]|[Hs Ho]]].
    - apply p11 in H; [|tauto]. apply p10 in H; [|tauto]. destruct H as [H _].
      assert (Hm := proj2 (m_td (allow_drop_table o) n) (conj Ho (conj Hs N3))). apply in_map_iff in Hm as (x & E & I). now apply (H x).
    - apply p11 in H; [|tauto]. destruct H as [H _].
      assert (Hm := proj2 (m_sd (allow_drop_struct o) n) (conj Ho (conj Hs N2))). apply in_map_iff in Hm as (x & E & I). now apply (H x).
    - destruct H as [H _].
      assert (Hm := proj2 (m_ed (allow_drop_enum o) n) (conj Ho (or_introl (conj Hs (conj N1 N3))))). apply in_map_iff in Hm as (x & E & I). now apply (H x).
  Qed.
  Lemma fin_soft n v : Dl n -> A11 (nm, n) v -> if allow_drop_enum o then v = None else p_type v.
  Proof.
    intros HD H. assert (X := excl_del n HD).
    assert (Hc : allow_drop_enum o = true \/ allow_drop_enum o = false) by (clear; destruct (allow_drop_enum o); auto). destruct Hc as [Ho|Ho]; rewrite Ho.
    - destruct H as [H _]. assert (Hm := proj2 (m_ed (allow_drop_enum o) n) (conj Ho (or_intror HD))). apply in_map_iff in Hm as (x & E & I). now apply (H x).
    - apply p11 in H; [|rewrite Ho; intros [Z _]; discriminate]. apply p10 in H; [|tauto]. apply p9 in H; [|tauto].
      apply p8 in H; [|tauto]. apply p7 in H; [|tauto]. apply p6 in H; [|tauto]. apply p5 in H; [|tauto]. apply p4 in H; [|tauto].
      destruct H as (_ & H & _). assert (Hm := proj2 (m_del n) HD). apply in_map_iff in Hm as (x & E & I). apply (H x); [exact I|now symmetry].
  Qed.
End Ns.

(** What mutation of a namespace leaves behind: [nm] is its name, [P] the assertion before. *)
Record ns_post (d : dialect) (o : options) (s t : namespace) (P : asrt) (n : string) (v : option dbobj) : Prop := {
  np_enum : forall e, In e (n_enums t) -> e_key e = n -> v = Some (want_enum e);
  np_struct : forall e, In e (n_structs t) -> s_key e = n -> v = Some (want_struct d e);
  np_table : forall e, In e (n_tables t) -> t_key e = n -> v = Some (OTable (want_tab d e));
  np_drop : ~ In n (map local_id (ns_names t)) ->
            (Ts s n /\ allow_drop_table o = true) \/ (Ss s n /\ allow_drop_struct o = true) \/ (Es s n /\ allow_drop_enum o = true) -> v = None;
  np_keep : ~ In n (map local_id (ns_names t)) -> ~ Dl s t n -> (Ts s n -> allow_drop_table o = false) -> (Ss s n -> allow_drop_struct o = false) ->
            (Es s n -> allow_drop_enum o = false) -> P (n_name s, n) v;
  np_soft : Dl s t n -> if allow_drop_enum o then v = None else p_type v }.

Theorem namespace_exec d o s t K Sc (P : asrt) D0 l :
  mutate_namespace d o s t = Ok l -> ns_wf d s -> ns_wf d t -> ns_compat d s t ->
  n_name s = ""%string \/ n_name s ∈ Sc ->
  (forall ty, In ty (types_of t) -> free K ty) -> (forall e, dropped_soft s t e -> K (ek e)) -> ns_like d s t D0 ->
  (forall q, In q (ns_names t) -> ~ In (local_id q) (map local_id (ns_names s)) -> db_objs D0 !! key_of q = None) ->
  (forall e, dropped_soft s t e -> ~ In (deleted (e_key e)) (map local_id (ns_names t)) /\ gobj D0 (n_name s, deleted (e_key e)) = None) ->
  sta K P -> (forall n v, P (n_name s, n) v -> soft K (gobj D0 (n_name s, n)) v) ->
  tri (engine_of d) Sc P l (fun k v => (fst k = n_name s -> ns_post d o s t P (snd k) v) /\ (fst k <> n_name s -> P k v)).
Proof.
  intros H Ws Wt C HSc HF HK L Hnew Hdel HP HP0.
  assert (Nm : n_name t = n_name s).
  { unfold mutate_namespace in H. destruct (String.eqb_spec (n_name s) (n_name t)) as [Hn|Hn]; [now symmetry|discriminate]. }
  eapply tri_weaken; [| |eapply (namespace_tri d o s t Nm Ws Wt C K Sc P D0 HSc HF HK L Hnew Hdel HP HP0 l H)]; [auto|].
  intros [a n] v Hv. cbn [fst snd]. split.
  - intros ->. constructor.
    + intros e I <-. rewrite <- (ek_t d s t Nm Wt e I) in Hv. eapply fin_enum; eauto.
    + intros e I <-. rewrite <- (sk_t d s t Nm Wt e I) in Hv. eapply fin_struct; eauto.
    + intros e I <-. rewrite <- (tk_t d s t Nm Wt e I) in Hv. eapply fin_table; eauto.
    + intros Hn Hd. rewrite names_t in Hn. eapply (fin_drop d o s t Ws Wt C Sc P D0); eauto; tauto.
    + intros Hn ? ? ? ?. rewrite names_t in Hn. eapply (fin_rest d o s t Nm Ws Wt C Sc P D0); eauto; tauto.
    + intros Hd. eapply (fin_soft d o s t Nm Ws Wt C Sc P D0); eauto.
  - intros N. eapply out_keys; eauto.
Qed.
Print Assumptions namespace_exec.
