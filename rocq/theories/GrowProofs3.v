(** Proofs for C62, part 3: the catalog of some of the classes is part of the catalog of all of them. *)
From Verif Require Import PyStr QuoteModel ObjectDict ObjectDictProofs Types Objects SqlAst Ddl DbSpec CatSpec Compat Convert ConvertSpec ConvertProofs
  CloseSpec CloseProofs1 CloseProofs2 CloseProofs3 CloseProofs4 CloseProofs5 CloseProofs6 CreateSpec CreateProofs1 CreateProofs2 CreateProofs3 GrowSpec GrowProofs2.
From Coq Require Import List Permutation Lia.
Open Scope string_scope.

Lemma group_some {A} (l : list (string * A)) m g : In (m, g) (multi_of l) -> exists x, In x g.
Proof.
  unfold multi_of. assert (G : forall l d, (forall m g, In (m, g) d -> exists x : A, In x g) -> forall m g, In (m, g) (fold_left (fun d p => multi_add (fst p) (snd p) d) l d) -> exists x, In x g).
  { clear. induction l as [|[k x] l IH]; intros d H m g; cbn [fold_left fst snd]; [apply H|]. apply IH. clear - H. induction d as [|[j h] d IH]; cbn [multi_add]; intros m g I.
    - destruct I as [[= <- <-]|[]]. exists x. now left.
    - destruct (String.eqb j k).
      + destruct I as [[= <- <-]|I]; [exists x; apply in_app_iff; simpl; auto|]. apply (H m g). now right.
      + destruct I as [[= <- <-]|I]; [apply (H j h); now left|]. apply (IH (fun m g I => H m g (or_intror I)) m g I). }
  apply G. intros ? ? [].
Qed.

(** provisos that hold of fewer classes *)
Lemma relevant_less env r1 r2 f : incl r1 r2 -> relevant env r1 f -> relevant env r2 f.
Proof. intros HI [c Ic If|c vs x y s Ic K I If]; [eapply rl_class|eapply rl_value]; eauto. Qed.
Lemma ordinary_less env o r1 r2 : incl r1 r2 -> ordinary env o r2 -> ordinary env o r1.
Proof. intros HI [A B C D E F G H]. constructor; eauto. Qed.
Lemma field_in_less env r1 r2 m f : incl r1 r2 -> field_in env r1 m f -> field_in env r2 m f.
Proof. intros HI [c Ic If|c vs x y s Ic M K I If]; [eapply fi_class|eapply fi_value]; eauto. Qed.
Lemma creatable_less env o r1 r2 : incl r1 r2 -> NoDup r1 -> creatable env o r2 -> creatable env o r1.
Proof.
  intros HI N [A B C D E F G H I J]. constructor; eauto using relevant_less, field_in_less.
  all: try (intros; eapply D; eauto); try (intros; eapply G; eauto).
Qed.

Section Both.
Context (env : cid -> classdef) (o : copts) (r1 r2 : list cid) (fuel : nat).
Hypothesis HI : incl r1 r2.
Hypothesis N1 : NoDup r1.
Hypothesis HO : ordinary env o r2.
Hypothesis HT1 : ordinary_types env o r1.
Hypothesis HT2 : ordinary_types env o r2.
Hypothesis HR : creatable env o r2.
Hypothesis HP : prefixed_alike o.

Section Back.
Context (ets : list (string * enumt)) (sts : list (string * structt)) (ts : list (string * table)) (cat : catalog).
Hypothesis HCat : make_catalog o (multi_of ets) (multi_of sts) (multi_of ts) = Ok cat.
Lemma part_back m t : o_qualified o = true -> In (m, t) ts -> exists n, In n cat /\ part o ets sts ts m n.
Proof.
  intros OQ It. unfold make_catalog in HCat. rewrite OQ in HCat. pose proof HCat as H. binds H. injection H as <-. apply map_res_all2 in E. pose proof It as It'. apply multi_of_in in It' as (g & Ig & Itg).
  destruct (all2_in_l _ _ _ _ E Ig) as (ns & Ins & Ens). binds Ens. injection Ens as <-. simpl in E0. eexists. split.
  - apply make_keep; [exact Ins|]. intros y Iy Ky. destruct (all2_in_r _ _ _ _ E Iy) as ([m' g'] & Ig' & Eg'). binds Eg'. injection Eg' as <-.
    simpl in Ky, E1. apply (ns_in o) in E0, E1. destruct (ord_schemas _ _ _ HO _ _ _ _ E1 E0 Ky) as [-> ->]. simpl.
    now rewrite (group_unique _ _ _ _ (multi_of_keys ts) Ig' Ig).
  - exists v0, g. simpl. auto.
Qed.
End Back.

Theorem catalog_part topo1 topo2 cat1 cat2 :
  (forall l, Permutation (topo1 l) l) -> (forall l, Permutation (topo2 l) l) ->
  dataclasses_to_catalog env o fuel topo1 r1 = Ok cat1 -> dataclasses_to_catalog env o fuel topo2 r2 = Ok cat2 -> part_of cat1 cat2.
Proof.
  intros P1 P2 H1 H2 n1 I1. unfold dataclasses_to_catalog in H1, H2. binds H1. binds H1. binds H1. binds H2. binds H2. binds H2.
  rename v into ets1, v0 into sts1, v1 into ts1, v2 into ets2, v3 into sts2, v4 into ts2. rename E into HE1, E0 into HS1, E1 into HTs1, E2 into HE2, E3 into HS2, E4 into HTs2.
  pose proof (enums_more env o r1 r2 HI ets1 ets2 HE1 HE2) as ME. pose proof (structs_more env o r1 r2 fuel HI topo1 topo2 sts1 sts2 P1 P2 HS1 HS2) as MS. pose proof (tables_more env o r1 r2 fuel HI ts1 ts2 HTs1 HTs2) as MT.
  destruct (parts env o r1 fuel HT1 topo1 ets1 sts1 ts1 HE1 HS1 cat1 n1 H1 I1) as [(OQ & m & P)|(OQ & -> & -> & _ & ->)].
  - pose proof P as (k & g & K & Ig & Pn). destruct (group_some _ _ _ Ig) as (t & It). assert (Itm : In (m, t) ts1) by (apply multi_of_in; exists g; auto).
    destruct (part_back ets2 sts2 ts2 cat2 H2 m t OQ (MT _ Itm)) as (n2 & I2 & Q). exists n2. split; [exact I2|]. pose proof Q as (k2 & g2 & K2 & Ig2 & Qn). assert (k2 = k) by congruence. subst k2.
    split; [rewrite Pn, Qn; reflexivity|]. split; [|split].
    + intros x Ix. pose proof (ME _ (part_enum o ets1 sts1 ts1 _ _ _ P Ix)) as J. rewrite Qn. cbn [n_enums make_ns]. apply make_keep.
      * apply multi_get_complete; [apply multi_of_keys|]. now apply multi_of_in.
      * intros y Iy Ky. apply multi_get_in, multi_of_in in Iy. eapply (enum_single env o r2 HO HT2); eauto.
    + intros x Ix. pose proof (MS _ (part_struct o ets1 sts1 ts1 _ _ _ P Ix)) as J. rewrite Qn. cbn [n_structs make_ns]. apply make_keep.
      * apply multi_get_complete; [apply multi_of_keys|]. now apply multi_of_in.
      * intros y Iy Ky. apply multi_get_in, multi_of_in in Iy. eapply (struct_single env o r2 fuel HO topo2); eauto.
    + intros x Ix. pose proof (MT _ (part_table o ets1 sts1 ts1 _ _ _ P Ix)) as J. rewrite Qn. cbn [n_tables make_ns]. apply make_keep.
      * apply multi_of_in in J as (g' & Ig' & J). now rewrite (group_unique _ _ _ _ (multi_of_keys ts2) Ig2 Ig').
      * intros y Iy Ky. assert (Jy : In (m, y) ts2) by (apply multi_of_in; exists g2; auto).
        pose proof (table_single env o r2 fuel HO HT2 HP ts2 HTs2 m m y x Jy J (fun _ => eq_refl) Ky) as X. now injection X.
  - pose proof H2 as H2'. unfold make_catalog in H2. rewrite OQ in H2. injection H2 as <-. eexists. split; [now left|]. split; [reflexivity|]. split; [intros x []|]. split; [intros x []|].
    intros x Ix. cbn [n_tables make_ns] in *. apply make_in in Ix. destruct (concat_in ts1 x Ix) as (m & J). apply MT in J. apply make_keep.
    + apply multi_of_in in J as (g & Ig & J). apply in_concat. exists g. split; [|exact J]. apply in_map_iff. exists (m, g). auto.
    + intros y Iy Ky. destruct (concat_in ts2 y Iy) as (m' & J').
      pose proof (table_single env o r2 fuel HO HT2 HP ts2 HTs2 m' m y x J' J) as X. assert (Y : (m', y) = (m, x)) by (apply X; [rewrite OQ; discriminate|exact Ky]). now injection Y.
Qed.
End Both.
