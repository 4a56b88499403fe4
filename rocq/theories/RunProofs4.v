(** DROP scripts. *)
From Verif Require Import PyStr QuoteModel ObjectDict ObjectDictSpec ObjectDictProofs Types Objects SqlAst Ddl Mutate TopoSpec SortSpec DbSpec CatSpec MutSpec RefSpec DbLemmas EqProofs TabProofs1 TabProofs2 NsProofs1 NsProofs2 NsProofs3 NsProofs4 NsProofs5 CatProofs1 CatProofs2 CatProofs3 CatProofs4 CatProofs5 SortProofs RunProofs1 RunProofs2 RunProofs3.
From stdpp Require Import gmap strings.
Open Scope list_scope.

Section Drop.
  Variables (d : dialect) (c : catalog) (D : db).
  Hypothesis W : cat_wf d c.
  Hypothesis U : unused c D.
  Hypothesis HD : db_ok D.
  Let Dp := plus_cat d c D.

  Lemma plus_in n k x : In n c -> In (k, x) (ns_objs d n) -> db_objs Dp !! k = Some x.
  Proof. intros I Hx. simpl. apply lookup_union_Some_l. apply cat_objs_lookup; eauto. Qed.
  Lemma plus_out k : ~ In k (cat_keys c) -> db_objs Dp !! k = db_objs D !! k.
  Proof. intros N. simpl. apply lookup_union_r. now apply (cat_objs_none d). Qed.
  Lemma plus_has : has_cat d c Dp.
  Proof.
    split; [|intros n k x; apply plus_in]. intros n I. destruct (String.eqb_spec (n_name n) "") as [E|E]; [now left|right]. simpl. apply elem_of_union_r.
    apply in_cat_schemas. split; [exact E|now apply in_map].
  Qed.
  Lemma schema_free n k : In n c -> n_name n <> ""%string -> fst k = n_name n -> db_objs D !! k = None.
  Proof.
    intros I N E. destruct (db_objs D !! k) as [o|] eqn:Eo; [|reflexivity]. exfalso. destruct (HD k o Eo) as [_ S]. unfold schema_ok in S. rewrite E in S.
    apply orb_true_iff in S as [S|S]; [apply String.eqb_eq in S; contradiction|]. apply bool_decide_eq_true in S. destruct (proj2 U n I); contradiction.
  Qed.
End Drop.

Lemma no_replaced_r s e : ~ replaced s [] e.
Proof. intros (a & b & x & _ & [] & _). Qed.
Lemma P0_eq_r s D k v : P0 s [] D k v <-> v = db_objs D !! k.
Proof.
  split.
  - unfold P0, gobj. intros H. induction H as [|a b e (k' & n & (x & Hx & _) & _) _ IH]; [reflexivity|]. destruct (no_replaced_r s x Hx).
  - intros ->. unfold P0, gobj. reflexivity.
Qed.
Lemma diff_nil_r (c : catalog) : od_difference n_name c [] = c.
Proof. apply diff_nil. Qed.
Lemma inter_nil (c : catalog) : od_intersection n_name c [] = [].
Proof. induction c as [|n r IH]; [reflexivity|]. unfold od_intersection in *. cbn [flat_map]. now rewrite IH. Qed.
Lemma diff_nil_l (c : catalog) : od_difference n_name [] c = [].
Proof. reflexivity. Qed.
Lemma union_nil_schemas : cat_schemas [] = ∅. Proof. reflexivity. Qed.

Lemma drop_exec d c D (o : options) : cat_wf d c -> unused c D -> db_ok D ->
  exec_all (engine_of d) (cat_drop_constraints c ++ flat_map drop_objects (rev c) ++ flat_map (drop_schema d) (rev c)) (plus_cat d c D) = Some D.
Proof.
  intros W U HD. set (Dp := plus_cat d c D).
  assert (Pr : Permutation c (rev c)) by apply Permutation_rev. assert (Wr := wf_perm d c (rev c) Pr W).
  assert (Hc : has_cat d c Dp) by now apply plus_has. assert (Hr := has_perm d c (rev c) Dp Pr Hc).
  assert (T1 := ph4 d o c [] Dp W (wf_nil d) Hc). assert (T2 := ph5 d o (rev c) [] Dp Wr (wf_nil d) Hr).
  rewrite !diff_nil_r, !diff_nil_l, !inter_nil, union_nil_schemas in T1, T2.
  cbn [flat_map] in T1, T2. rewrite union_empty_r_L in T1, T2.
  assert (Em : forall (P : asrt) k v, (after tk (fun e v => v = Some (OTable (want_tab d e))) [] P) k v <-> P k v) by (intros P k v; split; [intros [_ H]; apply H; intros []|intros H; split; [intros x []|auto]]).
  assert (Eg : forall A (nm : A -> string) R (P : asrt) k v, (grouped nm R [] P) k v <-> P k v) by (intros A nm R P k v; split; [intros [_ H]; apply H; intros []|intros H; split; [intros x []|auto]]).
  set (A4 := fun (k : okey) (v : option dbobj) => (forall x, In x (flat_map n_tables c) -> tk x = k -> exists v1, v1 = db_objs Dp !! tk x /\ p_nocons v1 v) /\ (~ In k (map tk (flat_map n_tables c)) -> v = db_objs Dp !! k)).
  assert (Hft : forall x, In x (flat_map n_tables (rev c)) <-> In x (flat_map n_tables c)) by (intros x; rewrite !in_flat_map; setoid_rewrite <- in_rev; reflexivity).
  assert (Hfk : forall k, In k (map tk (flat_map n_tables (rev c))) <-> In k (map tk (flat_map n_tables c))) by (intros k; rewrite !in_map_iff; setoid_rewrite Hft; reflexivity).
  assert (X1 : tri (engine_of d) (db_schemas Dp) (fun k v => v = db_objs Dp !! k) (cat_drop_constraints c) A4).
  { eapply tri_weaken; [| |exact T1].
    - intros k v Hv. apply Eg, Em, Eg, P0_eq_r. exact Hv.
    - intros k v [H1 H2]. split.
      + intros x Ix Ex. destruct (H1 x Ix Ex) as (v1 & V1 & V2). apply P0_eq_r in V1. eauto.
      + intros N. specialize (H2 N). apply Eg, Em, Eg, P0_eq_r in H2. exact H2. }
  assert (X2 : tri (engine_of d) (db_schemas Dp) A4 (flat_map drop_objects (rev c)) (fun k v => (In k (cat_keys c) -> v = None) /\ (~ In k (cat_keys c) -> v = db_objs Dp !! k))).
  { eapply tri_weaken; [| |exact T2].
    - intros k v [H1 H2]. split.
      + intros x Ix Ex. apply Hft in Ix. destruct (H1 x Ix Ex) as (v1 & V1 & V2). exists v1. split; [now apply P0_eq_r|exact V2].
      + rewrite Hfk. intros N. apply Eg, Em, Eg, P0_eq_r. auto.
    - intros k v [H1 H2].
      assert (NT : ~ In k (cat_keys c) -> ~ In k (map tk (flat_map n_tables c))).
      { intros N Z. apply N. apply in_map_iff in Z as (y & <- & Iy). apply in_flat_map in Iy as (m & Im & Iy). apply in_cat_keys. exists m. split; [exact Im|]. apply in_keys. right. right. now apply in_map. }
      assert (fin : ~ In k (cat_keys c) -> after tk (fun x v => exists v1, P0 (rev c) [] Dp (tk x) v1 /\ p_nocons v1 v) (flat_map n_tables (rev c))
                        (grouped (fun p : namespace * namespace => n_name (fst p)) (fun p k v => ns_post d o (fst p) (snd p) (P0 (rev c) [] Dp) (snd k) v) [] (after tk (fun e v => v = Some (OTable (want_tab d e))) [] (grouped n_name (fun n => made d n (P0 (rev c) [] Dp) (bare d)) [] (P0 (rev c) [] Dp)))) k v -> v = db_objs Dp !! k).
      { intros N [_ Z]. rewrite Hfk in Z. specialize (Z (NT N)). apply Eg, Em, Eg, P0_eq_r in Z. exact Z. }
      split.
      + intros Hk. apply in_cat_keys in Hk as (n & I & Hk). assert (Ek := key_scope d c n k W I Hk). apply in_rev in I. destruct (H1 n I Ek) as [G _]. auto.
      + intros N. destruct (in_dec string_dec (fst k) (map n_name (rev c))) as [In_|In_].
        * apply in_map_iff in In_ as (n & En & I). destruct (H1 n I (eq_sym En)) as [_ G]. apply fin; [exact N|]. apply G. intros Z. apply N. apply in_cat_keys. exists n. split; [now apply in_rev|exact Z].
        * apply fin; [exact N|]. auto. }
  destruct (tri_app _ _ _ _ _ _ _ X1 X2 Dp eq_refl) as (D5 & X & S5 & Q5); [reflexivity|].
  rewrite app_assoc, exec_all_app, X. cbn [mbind option_bind].
  assert (Nr : base.NoDup (map n_name (rev c))) by exact (cw_names _ _ Wr).
  destruct (drop_schemas_exec d (rev c) D5) as (D' & X6 & S6 & Z1 & Z2); [|exact Nr|].
  { intros n I Hn. apply in_rev in I. split.
    - rewrite S5. simpl. apply elem_of_union_r. apply in_cat_schemas. split; [exact Hn|now apply in_map].
    - intros _ k Ek. destruct (Q5 k) as [Qa Qb]. unfold gobj in *. destruct (in_dec (fun a b => decide (a = b)) k (cat_keys c)) as [Hk|Hk]; [auto|].
      etransitivity; [exact (Qb Hk)|]. etransitivity; [exact (plus_out d c D W k Hk)|]. exact (schema_free c D U HD n k I Hn Ek). }
  rewrite X6. f_equal. destruct D' as [S' O'], D as [S0 O0]. simpl in *. f_equal.
  - rewrite S6, S5. rewrite <- (schemas_perm c (rev c) Pr). apply set_eq. intros x. rewrite elem_of_difference, elem_of_union. split; [tauto|]. intros Hx. split; [now left|].
    rewrite in_cat_schemas. intros [Nx Ix]. apply in_map_iff in Ix as (n & <- & I). destruct (proj2 U n I); [contradiction|]. simpl in *. contradiction.
  - apply map_eq. intros k. destruct (Q5 k) as [Qa Qb]. unfold gobj in *.
    assert (Hk5 : db_objs D5 !! k = O0 !! k).
    { destruct (in_dec (fun a b => decide (a = b)) k (cat_keys c)) as [Hk|Hk].
      - etransitivity; [exact (Qa Hk)|]. symmetry. exact (proj1 U k Hk).
      - etransitivity; [exact (Qb Hk)|]. exact (plus_out d c (Db S0 O0) W k Hk). }
    destruct (decide (fst k ∈ cat_schemas (rev c))) as [Hs|Hs].
    + etransitivity; [exact (Z1 k Hs)|]. symmetry. apply in_cat_schemas in Hs as [Ns Hs]. apply in_map_iff in Hs as (n & En & I). apply in_rev in I.
      apply (schema_free c (Db S0 O0) U HD n k I); congruence.
    + etransitivity; [exact (Z2 k Hs)|]. exact Hk5.
Qed.
