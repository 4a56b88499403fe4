(** Mutation of a whole catalog reaches the target. *)
From Verif Require Import PyStr QuoteModel ObjectDict ObjectDictSpec ObjectDictProofs Types Objects SqlAst Ddl Mutate DbSpec CatSpec DbLemmas EqProofs TabProofs1 TabProofs2 TabProofs3 TabProofs4 TabProofs5 NsProofs1 NsProofs2 NsProofs3 NsProofs4 NsProofs5 CatProofs1 CatProofs2.
From stdpp Require Import gmap strings.
Open Scope list_scope.

(** ** The objects of a catalog *)
Lemma in_ns_objs d n k x : In (k, x) (ns_objs d n) <->
  (exists e, In e (n_enums n) /\ k = ek e /\ x = want_enum e)
  \/ (exists e, In e (n_structs n) /\ k = sk e /\ x = want_struct d e)
  \/ (exists e, In e (n_tables n) /\ k = tk e /\ x = OTable (want_tab d e)).
Proof.
  unfold ns_objs. rewrite !in_app_iff, !in_map_iff. split.
  - intros [(e & [= <- <-] & I)|[(e & [= <- <-] & I)|(e & [= <- <-] & I)]]; eauto 10.
  - intros [(e & I & -> & ->)|[(e & I & -> & ->)|(e & I & -> & ->)]]; [left|right; left|right; right]; exists e; auto.
Qed.
Lemma ns_objs_keys d n : map fst (ns_objs d n) = map key_of (ns_names n).
Proof. unfold ns_objs, ns_names. rewrite !map_app, !map_map. reflexivity. Qed.
Lemma in_cat_keys c k : In k (cat_keys c) <-> exists n, In n c /\ In k (map key_of (ns_names n)).
Proof.
  unfold cat_keys. rewrite in_map_iff. setoid_rewrite in_flat_map. setoid_rewrite in_map_iff. firstorder.
Qed.

Lemma want_tab_like d a b : tab_wf d a -> tab_like d a b (want_tab d a).
Proof.
  intros W. constructor; try reflexivity.
  - intros n. simpl. unfold want_cols. rewrite (lookup_list_to_map c_name). unfold col_names. destruct (find_by c_name n (t_columns a)) eqn:E.
    + apply find_by_some in E as [I <-]. split; [intros _; now apply in_map|simpl; eauto].
    + apply find_by_none in E. simpl. split; [intros [? [=]]|intros H; contradiction].
  - intros c I. exists (c_type c). split; [|auto]. simpl. unfold want_cols. rewrite (lookup_list_to_map c_name), (find_by_in c_name _ c (tw_cols _ _ W) I). reflexivity.
Qed.
Lemma want_struct_like a b : base.NoDup (map m_name (s_members a)) -> struct_like a b (want_members (s_members a)).
Proof.
  intros W. constructor.
  - intros n. unfold want_members. rewrite (lookup_list_to_map m_name). destruct (find_by m_name n (s_members a)) eqn:E.
    + apply find_by_some in E as [I <-]. split; [intros _; now apply in_map|simpl; eauto].
    + apply find_by_none in E. simpl. split; [intros [? [=]]|intros H; contradiction].
  - intros c I. exists (m_type c). split; [|auto]. unfold want_members. rewrite (lookup_list_to_map m_name), (find_by_in m_name _ c W I). reflexivity.
Qed.
Lemma has_ns_like d a b D : ns_wf d a -> (forall k x, In (k, x) (ns_objs d a) -> db_objs D !! k = Some x) -> ns_like d a b D.
Proof.
  intros W H. constructor.
  - intros e I. apply H, in_ns_objs. left. eauto.
  - intros e I. exists (want_members (s_members e)). split.
    + apply H, in_ns_objs. right. left. eauto.
    + intros y _ _. apply want_struct_like. exact (nw_struct _ _ W e I).
  - intros e I. exists (want_tab d e). split.
    + apply H, in_ns_objs. right. right. eauto.
    + intros y _ _. apply want_tab_like. exact (nw_table _ _ W e I).
Qed.

Lemma flat_flat {A B C} (f : A -> list B) (g : B -> list C) l : flat_map (fun a => flat_map g (f a)) l = flat_map g (flat_map f l).
Proof. induction l as [|a l IH]; [reflexivity|]. simpl. now rewrite IH, flat_map_app. Qed.
Lemma flat_concat {A B} (f : A -> list B) l : flat_map f l = concat (map f l).
Proof. apply flat_map_concat_map. Qed.

Lemma soft_false v v' : soft (fun _ => False) v v' -> v' = v.
Proof. intros H. induction H as [|a b c (k & n & [] & _)]. reflexivity. Qed.

Section Cat.
  Variables (d : dialect) (o : options) (s t : catalog) (D : db).
  Hypothesis Ws : cat_wf d s.
  Hypothesis Wt : cat_wf d t.
  Hypothesis C : cat_compat d s t.
  Hypothesis HD : has_cat d s D.
  Hypothesis NF : names_free s t D.

  Definition K (k : okey) : Prop := exists e, replaced s t e /\ k = ek e.
  Definition P0 : asrt := fun k v => soft K (gobj D k) v.
  Let ns_create := od_difference n_name t s.
  Let ns_drop := od_difference n_name s t.
  Let pairs := od_intersection n_name s t.
  Let Sc := db_schemas D ∪ cat_schemas ns_create.
  Let nm2 (p : namespace * namespace) := n_name (fst p).

  Lemma sta_P0 : sta K P0.
  Proof. intros k v v' Hs H. unfold P0 in *. etransitivity; eauto. Qed.

  Lemma dropped_replaced a b e : In a s -> In b t -> n_name a = n_name b -> dropped_soft a b e -> replaced s t e.
  Proof.
    intros Ia Ib E [Ie Hk]. apply in_map_iff in Hk as (x & Ex & Ix).
    destruct (nc_ids _ _ _ (cc_ns _ _ _ C a b Ia Ib E) e x Ie Ix) as [En _]; [congruence|].
    exists a, b, x. repeat split; auto. intros Hin.
    assert (X := excl_n d b (cw_ns _ _ Wt b Ib) (e_key e)). apply (proj1 (proj2 X)); [exact Hin|].
    unfold Ts. rewrite <- Ex. now apply in_map.
  Qed.
  Lemma free_t b ty : In b t -> In ty (types_of b) -> free K ty.
  Proof.
    intros Ib It q Iq (e & He & E). exact (cc_free _ _ _ C e b ty q He Ib It Iq E).
  Qed.
  Lemma key_scope c n k : cat_wf d c -> In n c -> In k (map key_of (ns_names n)) -> fst k = n_name n.
  Proof. intros W I Hk. apply in_map_iff in Hk as (q & <- & Iq). exact (nw_scope _ _ (cw_ns _ _ W n I) q Iq). Qed.
  Lemma ns_unique c a b : cat_wf d c -> In a c -> In b c -> n_name a = n_name b -> a = b.
  Proof.
    intros W Ia Ib E. assert (H1 := get_in n_name c a). assert (H2 := get_in n_name c b).
    assert (N := proj1 (NoDup_ListNoDup _) (cw_names _ _ W)). apply H1 in Ia; [|exact N]. apply H2 in Ib; [|exact N]. congruence.
  Qed.

  Lemma in_create n : In n ns_create <-> In n t /\ ~ In (n_name n) (map n_name s).
  Proof. apply difference_in. Qed.
  Lemma in_drop n : In n ns_drop <-> In n s /\ ~ In (n_name n) (map n_name t).
  Proof. apply difference_in. Qed.
  Lemma in_pairs a b : In (a, b) pairs <-> In a s /\ In b t /\ n_name a = n_name b.
  Proof.
    split; [apply intersection_same|]. intros (Ia & Ib & E). apply intersection_in. split; [exact Ia|]. rewrite E.
    apply get_in; [|exact Ib]. apply NoDup_ListNoDup. exact (cw_names _ _ Wt).
  Qed.
  Lemma nodup_create : base.NoDup (map n_name ns_create).
  Proof. apply NoDup_ListNoDup, (difference_wf n_name), NoDup_ListNoDup, (cw_names _ _ Wt). Qed.
  Lemma nodup_drop : base.NoDup (map n_name ns_drop).
  Proof. apply NoDup_ListNoDup, (difference_wf n_name), NoDup_ListNoDup, (cw_names _ _ Ws). Qed.
  Lemma nodup_pairs : base.NoDup (map nm2 pairs).
  Proof. apply intersection_keys_nodup, (cw_names _ _ Ws). Qed.

  (** ** Phases *)
  Let P1 : asrt := grouped n_name (fun n => made d n P0 (bare d)) ns_create P0.
  Let tabs1 := flat_map n_tables ns_create.
  Let P2 : asrt := after tk (fun e v => v = Some (OTable (want_tab d e))) tabs1 P1.
  Let P3 : asrt := grouped nm2 (fun p k v => ns_post d o (fst p) (snd p) P0 (snd k) v) pairs P2.
  Let tabs4 := flat_map n_tables ns_drop.
  Let P4 : asrt := after tk (fun x v => exists v1, P0 (tk x) v1 /\ p_nocons v1 v) tabs4 P3.
  Let P5 : asrt := grouped n_name (fun n => gone n P4) ns_drop P4.

  Lemma sta_made n : In n t -> sta K (made d n P0 (bare d)).
  Proof.
    intros I k v v' Hs (A1 & A2 & A3 & A4). split; [|split; [|split]].
    - intros e Ie Ee. apply (st_exact K (want_enum e) (free_want_enum K e) v v' Hs). auto.
    - intros e Ie Ee. eapply (st_exact K (want_struct d e)); [|exact Hs|now apply A2]. apply free_want_struct. intros c Ic.
      apply (free_t n); [exact I|]. unfold types_of. apply in_or_app. left. apply in_flat_map. exists e. split; [exact Ie|now apply in_map].
    - intros e Ie Ee. eapply (st_exact K (OTable (bare d e))); [|exact Hs|now apply A3]. apply free_cols. intros c Ic.
      apply (free_t n); [exact I|]. unfold types_of. apply in_or_app. right. apply in_flat_map. exists e. split; [exact Ie|now apply in_map].
    - intros N. eapply sta_P0; eauto.
  Qed.
  Lemma sta_P1 : sta K P1.
  Proof. apply sta_grouped; [|exact sta_P0]. intros n I. apply in_create in I as [I _]. now apply sta_made. Qed.
  Lemma sta_P2 : sta K P2.
  Proof.
    apply sta_after; [|exact sta_P1]. intros e I v v' Hs Hv. apply in_flat_map in I as (n & In_ & Ie). apply in_create in In_ as [In_ _].
    eapply (st_exact K (OTable (want_tab d e))); [|exact Hs|exact Hv]. apply free_cols. intros c Ic.
    apply (free_t n); [exact In_|]. unfold types_of. apply in_or_app. right. apply in_flat_map. exists e. split; [exact Ie|now apply in_map].
  Qed.

  Lemma ph1 l : concat_res (create_objects d) ns_create = Ok l -> tri (engine_of d) Sc P0 l P1.
  Proof.
    intros H. apply concat_res_ok in H as [H ->].
    apply (tri_group (engine_of d) Sc K n_name (fun n => ok_or [] (create_objects d n))).
    - exact nodup_create.
    - intros n I. apply in_create in I as [I _]. now apply sta_made.
    - exact sta_P0.
    - intros n P' I HP' HQ. destruct (H n I) as [y Hy]. rewrite Hy. cbn [ok_or]. apply in_create in I as I'. destruct I' as [It Is].
      assert (W := cw_ns _ _ Wt n It).
      eapply tri_weaken; [| |apply (create_objects_tri d n Sc P' W)].
      + auto.
      + intros k v Hv. split.
        * intros E. destruct Hv as (A1 & A2 & A3 & A4). split; [exact A1|]. split; [exact A2|]. split; [exact A3|]. intros N. now apply HQ; auto.
        * intros E. apply Hv. intros Hk. apply E. now apply (key_scope t).
      + destruct (String.eqb_spec (n_name n) "") as [E|E]; [now left|]. right. unfold Sc. apply elem_of_union_r. apply in_cat_schemas.
        split; [exact E|]. now apply in_map.
      + intros m v Hm Hv. apply HQ in Hv; [|reflexivity]. unfold P0 in Hv. eapply stable_none; [exact Hv|].
        apply in_map_iff in Hm as (q & <- & Iq). assert (Eq := scope_key d n q W Iq). rewrite <- Eq.
        apply (nf_keys _ _ _ NF).
        * apply in_cat_keys. exists n. split; [exact It|now apply in_map].
        * intros Hk. apply in_cat_keys in Hk as (m & Im & Hk). apply Is. apply (key_scope s) in Hk; [|exact Ws|exact Im]. rewrite Eq in Hk. cbn [fst] in Hk. rewrite Hk. now apply in_map.
      + exact Hy.
  Qed.

  Lemma tabs_nodup c l : cat_wf d c -> (forall n, In n l -> In n c) -> base.NoDup (map n_name l) -> base.NoDup (map tk (flat_map n_tables l)).
  Proof.
    intros W. induction l as [|n l IH]; intros Hi N; [constructor|]. simpl in N. apply NoDup_cons in N as [N1 N2]. simpl. rewrite map_app. apply NoDup_app.
    assert (I := Hi n (or_introl eq_refl)). split; [|split].
    - rewrite (mn_t d n (cw_ns _ _ W n I)). apply nodup_pair, (nd_t d). exact (cw_ns _ _ W n I).
    - intros k Hk Hk'. apply elem_of_list_In in Hk, Hk'. apply N1. apply elem_of_list_In.
      apply in_map_iff in Hk as (x & <- & Ix). apply in_map_iff in Hk' as (y & Ey & Iy). apply in_flat_map in Iy as (m & Im & Iy).
      rewrite (kn_t d n (cw_ns _ _ W n I) x Ix), (kn_t d m (cw_ns _ _ W m (Hi m (or_intror Im))) y Iy) in Ey. injection Ey as Ey _. rewrite <- Ey. now apply in_map.
    - apply IH; [|exact N2]. intros m Im. apply Hi. now right.
  Qed.

  Lemma ph2 : tri (engine_of d) Sc P1 (flat_map (ns_add_constraints d) ns_create) P2.
  Proof.
    unfold ns_add_constraints. rewrite flat_flat, flat_concat. apply (tri_phase (engine_of d) Sc tk (add_constraints d)).
    - apply (tabs_nodup t); [exact Wt| |exact nodup_create]. intros n I. now apply in_create in I.
    - intros x D1 I HS Hx. exists (Some (OTable (want_tab d x))). split; [|reflexivity]. apply in_flat_map in I as (n & In_ & I).
      apply in_create in In_ as In'. destruct In' as [It Is]. assert (W := cw_ns _ _ Wt n It).
      destruct Hx as [Hx _]. specialize (Hx n In_). rewrite (kn_t d n W x I) in Hx at 1. specialize (Hx eq_refl). destruct Hx as (_ & _ & Hx & _).
      specialize (Hx x I eq_refl). apply add_constraints_exec; [exact (nw_table _ _ W x I)|exact Hx].
  Qed.

  Lemma P2_common a b k v : In (a, b) pairs -> fst k = n_name a -> P2 k v -> P0 k v.
  Proof.
    intros Hp E H. apply in_pairs in Hp as (Ia & Ib & Hab).
    assert (N : ~ In (fst k) (map n_name ns_create)).
    { rewrite E. intros Hc. apply in_map_iff in Hc as (n & En & Hc). apply in_create in Hc as [_ Hc]. apply Hc. rewrite En. now apply in_map. }
    apply after_out in H.
    - now apply H.
    - intros Hk. apply in_map_iff in Hk as (x & Ex & Ix). apply in_flat_map in Ix as (n & In_ & Ix). apply N. apply in_create in In_ as In'. destruct In' as [It _].
      rewrite <- Ex, (kn_t d n (cw_ns _ _ Wt n It) x Ix). cbn [fst]. now apply in_map.
  Qed.

  Lemma ph3 l : concat_res (fun p => mutate_namespace d o (fst p) (snd p)) pairs = Ok l -> tri (engine_of d) Sc P2 l P3.
  Proof.
    intros H. apply concat_res_ok in H as [H ->].
    apply (tri_group (engine_of d) Sc K nm2 (fun p => ok_or [] (mutate_namespace d o (fst p) (snd p))) (fun p k v => ns_post d o (fst p) (snd p) P0 (snd k) v)).
    - exact nodup_pairs.
    - intros [a b] I. apply in_pairs in I as (Ia & Ib & E). apply sta_ns_post; [|exact sta_P0]. intros ty. now apply free_t.
    - exact sta_P2.
    - intros [a b] P' I HP' HQ. destruct (H _ I) as [y Hy]. rewrite Hy. cbn [ok_or fst snd] in *. unfold nm2 in *. cbn [fst] in *.
      apply in_pairs in I as I'. destruct I' as (Ia & Ib & E). assert (Wa := cw_ns _ _ Ws a Ia). assert (Wb := cw_ns _ _ Wt b Ib).
      assert (HQ0 : forall k v, fst k = n_name a -> P' k v -> P0 k v).
      { intros k v Ek Hv. apply (P2_common a b k v I Ek). now apply HQ. }
      eapply tri_weaken; [| |apply (namespace_exec d o a b K Sc P' D)].
      + auto.
      + intros k v [H1 H2]. split; [|exact H2]. intros Ek. destruct (H1 Ek) as [B1 B2 B3 B4 B5 B6]. constructor; auto.
      + exact Hy.
      + exact Wa.
      + exact Wb.
      + exact (cc_ns _ _ _ C a b Ia Ib E).
      + destruct (proj1 HD a Ia) as [Z|Z]; [now left|]. right. unfold Sc. apply elem_of_union_l. exact Z.
      + intros ty. now apply free_t.
      + intros e He. exists e. split; [|reflexivity]. eapply dropped_replaced; eauto.
      + apply has_ns_like; [exact Wa|]. intros k x. apply (proj2 HD a k x Ia).
      + intros q Iq Nq. apply (nf_keys _ _ _ NF).
        * apply in_cat_keys. exists b. split; [exact Ib|now apply in_map].
        * intros Hk. apply in_cat_keys in Hk as (m & Im & Hk). apply Nq.
          assert (Em : m = a). { apply (ns_unique s); auto. apply (key_scope s) in Hk; [|exact Ws|exact Im]. rewrite (scope_key d b q Wb Iq) in Hk. cbn [fst] in Hk. congruence. }
          subst m. apply in_map_iff in Hk as (q' & Eq & Iq'). rewrite (scope_key d b q Wb Iq), (scope_key d a q' Wa Iq') in Eq. injection Eq as _ Eq. rewrite <- Eq. now apply in_map.
      + intros e He. assert (Hr := dropped_replaced a b e Ia Ib E He). destruct He as [Ie _].
        assert (Ep : parked e = (n_name a, deleted (e_key e))).
        { unfold parked. assert (Z := ek_s d a Wa e Ie). unfold ek in Z. rewrite Z. reflexivity. }
        split.
        * intros Hin. apply (cc_parked _ _ _ C e Hr). rewrite Ep. apply in_cat_keys. exists b. split; [exact Ib|].
          apply in_map_iff in Hin as (q & Eq & Iq). rewrite <- Eq, E, <- (scope_key d b q Wb Iq). now apply in_map.
        * unfold gobj. rewrite <- Ep. exact (nf_parked _ _ _ NF e Hr).
      + exact HP'.
      + intros n v Hv. apply HQ0 in Hv; [exact Hv|reflexivity].
  Qed.

  Lemma P3_dropped n k v : In n ns_drop -> fst k = n_name n -> P3 k v -> P0 k v.
  Proof.
    intros Hn E H. apply in_drop in Hn as [Is It]. destruct H as [_ H]. assert (H2 : P2 k v).
    { apply H. intros Hk. apply in_map_iff in Hk as ([a b] & Ek & I). apply in_pairs in I as (Ia & Ib & Eab). unfold nm2 in Ek. cbn [fst] in Ek.
      apply It. rewrite <- E, <- Ek, Eab. now apply in_map. }
    assert (N : ~ In (fst k) (map n_name ns_create)).
    { rewrite E. intros Hc. apply in_map_iff in Hc as (m & En & Hc). apply in_create in Hc as [Hc _]. apply It. rewrite <- En. now apply in_map. }
    apply after_out in H2; [now apply H2|].
    intros Hk. apply in_map_iff in Hk as (x & Ex & Ix). apply in_flat_map in Ix as (m & Im & Ix). apply N. apply in_create in Im as Im'. destruct Im' as [Imt _].
    rewrite <- Ex, (kn_t d m (cw_ns _ _ Wt m Imt) x Ix). cbn [fst]. now apply in_map.
  Qed.

  Lemma ph4 : tri (engine_of d) Sc P3 (flat_map ns_drop_constraints ns_drop) P4.
  Proof.
    unfold ns_drop_constraints. rewrite flat_flat, flat_concat. apply (tri_phase (engine_of d) Sc tk drop_constraints (fun x v => exists v1, P0 (tk x) v1 /\ p_nocons v1 v)).
    - apply (tabs_nodup s); [exact Ws| |exact nodup_drop]. intros n I. now apply in_drop in I.
    - intros x D1 I HS Hx. apply in_flat_map in I as (n & In_ & I). apply in_drop in In_ as In'. destruct In' as [Is It]. assert (W := cw_ns _ _ Ws n Is).
      apply (P3_dropped n) in Hx; [|exact In_|now rewrite (kn_t d n W x I)].
      destruct (drop_constraints_exec (engine_of d) x D1) as (v & X1 & X2); [exact (tw_cons _ _ (nw_table _ _ W x I))| |eauto 6].
      eapply stable_tablecons; [exact Hx|]. exists (want_tab d x). split; [|reflexivity]. apply (proj2 HD n _ _ Is). apply in_ns_objs. right. right. eauto.
  Qed.

  Lemma P4_dropped n k v : In n ns_drop -> fst k = n_name n -> P4 k v -> ~ In k (map tk (n_tables n)) -> P0 k v.
  Proof.
    intros Hn E H N. apply (P3_dropped n); auto. apply after_out in H; [exact H|]. intros Hk. apply in_map_iff in Hk as (x & Ex & Ix).
    apply in_flat_map in Ix as (m & Im & Ix). assert (m = n).
    { apply in_drop in Hn as [Hn _]. apply in_drop in Im as [Im _]. apply (ns_unique s); auto. rewrite <- Ex, (kn_t d m (cw_ns _ _ Ws m Im) x Ix) in E. exact E. }
    subst m. apply N. rewrite <- Ex. now apply in_map.
  Qed.

  Lemma ph5 : tri (engine_of d) Sc P4 (flat_map drop_objects ns_drop) P5.
  Proof.
    rewrite flat_concat. apply (tri_group (engine_of d) Sc (fun _ => False) n_name drop_objects (fun n => gone n P4)).
    - exact nodup_drop.
    - intros n _ k v v' Hs Hv. apply soft_false in Hs. now subst.
    - intros k v v' Hs Hv. apply soft_false in Hs. now subst.
    - intros n P' I HP' HQ. apply in_drop in I as I'. destruct I' as [Is It]. assert (W := cw_ns _ _ Ws n Is).
      assert (Fr : forall (k : okey) v, In k (map ek (n_enums n)) \/ In k (map sk (n_structs n)) -> fst k = n_name n -> P' k v -> P0 k v).
      { intros k v Hk E Hv. apply HQ in Hv; [|exact E]. apply (P4_dropped n); auto. destruct k as [a m]. cbn [fst] in E. subst a.
        rewrite (mn_e d n W), (mn_s d n W), !in_pair in Hk. rewrite (mn_t d n W), in_pair. assert (X := excl_n d n W m). unfold Es, Ss, Ts in X. tauto. }
      eapply tri_weaken; [| |apply (drop_objects_tri d n Sc P' W)].
      + auto.
      + intros k v [H1 H2]. split.
        * intros E. split; [exact H1|]. intros N. apply HQ; auto.
        * intros E. apply H2. intros Hk. apply E. now apply (key_scope s).
      + intros e v Ie Hv. apply Fr in Hv; [|left; now apply in_map|now rewrite (kn_e d n W e Ie)]. unfold P0 in Hv.
        eapply stable_type; [exact Hv|]. exists (want_enum e). split; [|reflexivity]. apply (proj2 HD n _ _ Is). apply in_ns_objs. left. eauto.
      + intros e v Ie Hv. apply Fr in Hv; [|right; now apply in_map|now rewrite (kn_s d n W e Ie)]. unfold P0 in Hv.
        eapply stable_type; [exact Hv|]. exists (want_struct d e). split; [|reflexivity]. apply (proj2 HD n _ _ Is). apply in_ns_objs. right. left. eauto.
      + intros e v Ie Hv. apply HQ in Hv; [|now rewrite (kn_t d n W e Ie)]. destruct Hv as [Hv _]. destruct (Hv e) as (v1 & _ & tb & ks & _ & ->); [|reflexivity|red; eauto]. apply in_flat_map. eauto.
  Qed.
End Cat.
