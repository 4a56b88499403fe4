(** The parts of a table mutation that moves a column into a lookup table. *)
From Verif Require Import PyStr QuoteModel ObjectDict ObjectDictSpec ObjectDictProofs Types Objects SqlAst Ddl Mutate DbSpec CatSpec MutSpec StmtSpec EqProofs NoopProofs KeySpec SortProofs StmtProofs StmtProofs2 DataSpec DataProofs1 DataProofs2 DataProofs3.
From Verif Require Import TabProofs3.
From stdpp Require Import gmap strings.
Open Scope list_scope.

Lemma nodup_inter a b : List.NoDup (map c_name a) -> List.NoDup (map (fun p => c_name (fst p)) (od_intersection c_name a b)).
Proof.
  induction a as [|x a IH]; intros N; simpl; [constructor|]. inversion N as [|? ? N1 N2]; subst. destruct (od_get c_name (c_name x) b) as [y|]; [|now apply IH].
  simpl. constructor; [|now apply IH]. intros I. apply N1. apply in_map_iff in I as (p & <- & I). apply in_inter in I as (I & _ & _). now apply in_map.
Qed.
Lemma nodup_filter_map {A} (f : A -> string) g l : List.NoDup (map f l) -> List.NoDup (map f (List.filter g l)).
Proof.
  induction l as [|x l IH]; intros N; simpl; [constructor|]. inversion N as [|? ? N1 N2]; subst. destruct (g x); [|now apply IH].
  simpl. constructor; [|now apply IH]. intros I. apply N1. apply in_map_iff in I as (p & <- & I). apply filter_In in I as [I _]. now apply in_map.
Qed.

(** a migrated pair of columns with another name *)
Definition other_pair (d : dialect) (x y : table) (n : string) (p : column * column) : Prop :=
  common_col x y (fst p) (snd p) /\ is_column_migrated d (fst p) (snd p) = true /\ c_name (fst p) <> n.
Inductive last_act (d : dialect) (x y : table) (a : action) : Prop :=
| la_hard u v : common_col x y u v -> is_column_migrated d u v = true -> a = hard_drop_column u -> last_act d x y a
| la_alter u v l : common_col x y u v -> mutate_column d u v = Ok l -> In a l -> last_act d x y a
| la_drop u : In u (t_columns x) -> ~ In (c_name u) (map c_name (t_columns y)) -> a = drop_column d u -> last_act d x y a
| la_cons : (exists k, a = ADropConstraint k) \/ (exists k, a = AAddConstraint k) -> last_act d x y a.
Record shape (d : dialect) (x y : table) (u v : column) (l : list stmt) : Prop := {
  sh_parts : exists s1 a s2 c1 cd c2 o1 mv o2 fin cm,
    l = s1 ++ [SAlterTable (t_name x) [a]] ++ s2 ++ [SAlterTable (t_name x) (c1 ++ AAddColumn cd :: c2)] ++ o1 ++ mv ++ o2 ++ [SAlterTable (t_name x) fin] ++ cm
    /\ soft_drop_column d u = Ok a /\ column_def d v = Ok cd /\ migrate_column d x u y v = Ok mv
    /\ (forall st, In st (s1 ++ s2) -> exists p b, other_pair d x y (c_name u) p /\ soft_drop_column d (fst p) = Ok b /\ st = SAlterTable (t_name x) [b])
    /\ (forall b, In b (c1 ++ c2) -> exists w cdw, In w (t_columns y) /\ c_name w <> c_name v /\ column_def d w = Ok cdw /\ b = AAddColumn cdw)
    /\ (forall st, In st (o1 ++ o2) -> exists p r, other_pair d x y (c_name u) p /\ migrate_column d x (fst p) y (snd p) = Ok r /\ In st r)
    /\ (forall b, In b fin -> last_act d x y b)
    /\ (forall st, In st cm -> inert st) }.
Lemma mutate_table_shape d x y u v l : d = DPg \/ d = DMySQL -> List.NoDup (map c_name (t_columns x)) -> List.NoDup (map c_name (t_columns y)) ->
  common_col x y u v -> is_column_migrated d u v = true -> mutate_table d x y = Ok l -> shape d x y u v l.
Proof.
  intros Hd Nx Ny Cu Mu H. unfold mutate_table in H. destruct (mutate_table_base d x y) as [b|] eqn:B; simpl in H; [|discriminate]. injection H as <-.
  unfold mutate_table_base, check_identity in B. destruct (qid_eqb (t_name x) (t_name y)) eqn:En; cbn [bind] in B; [|discriminate].
  set (common := od_intersection c_name (t_columns x) (t_columns y)) in *.
  set (mig := List.filter (fun p => is_column_migrated d (fst p) (snd p)) common) in *.
  assert (Hm : forall p, In p mig -> common_col x y (fst p) (snd p) /\ is_column_migrated d (fst p) (snd p) = true).
  { intros p Ip. apply filter_In in Ip as [Ip M]. split; [now apply inter_common|exact M]. }
  assert (Iuv : In (u, v) mig).
  { apply filter_In. split; [|exact Mu]. apply (intersection_in c_name). destruct Cu as (I1 & I2 & E). split; [exact I1|]. rewrite E. now apply (get_in c_name). }
  assert (Nm : List.NoDup (map (fun p => c_name (fst p)) mig)) by now apply nodup_filter_map, nodup_inter.
  apply in_split in Iuv as (m1 & m2 & Em). rewrite Em in Nm. rewrite map_app in Nm. simpl in Nm.
  assert (Op : forall p, In p (m1 ++ m2) -> other_pair d x y (c_name u) p).
  { intros p Ip. assert (Ip' : In p mig) by (rewrite Em; apply in_or_app; apply in_app_or in Ip as [Ip|Ip]; [left|right; right]; exact Ip).
    destruct (Hm p Ip') as [C M]. split; [exact C|]. split; [exact M|]. intros E. apply NoDup_remove_2 in Nm. apply Nm. rewrite <- map_app, <- E. now apply (in_map (fun p => c_name (fst p))). }
  match type of B with bind ?z _ = _ => destruct z as [soft|] eqn:B1; cbn [bind] in B; [|discriminate] end. apply table_error_ok in B1.
  match type of B with bind ?z _ = _ => destruct z as [mc|] eqn:B2; cbn [bind] in B; [|discriminate] end. apply table_error_ok in B2.
  match type of B with bind ?z _ = _ => destruct z as [nc|] eqn:B3; cbn [bind] in B; [|discriminate] end. apply table_error_ok in B3.
  match type of B with bind ?z _ = _ => destruct z as [mv|] eqn:B4; cbn [bind] in B; [|discriminate] end. apply table_error_ok in B4.
  match type of B with bind ?z _ = _ => destruct z as [al|] eqn:B5; cbn [bind] in B; [|discriminate] end. apply table_error_ok in B5.
  match type of B with (if ?z then _ else _) = _ => destruct z; [discriminate|] end.
  rewrite Em in B1, B2, B4.
  apply concat_res_app in B1 as (s1 & s' & S1 & S2 & ->). apply concat_res_cons in S2 as (s0 & s2 & S0 & S2 & ->). cbn [fst snd] in S0.
  destruct (soft_drop_column d u) as [a|] eqn:Ea; cbn [bind] in S0; [|discriminate]. assert (Es0 : s0 = [SAlterTable (t_name x) [a]]) by (destruct Hd as [-> | ->]; simpl in S0; congruence). clear S0.
  apply map_res_split in B2 as (c1 & ac & c2 & C1 & C0 & C2 & ->). cbn [fst snd] in C0. unfold create_column in C0. destruct (column_def d v) as [cd|] eqn:Ecd; cbn [bind] in C0; [|discriminate]. injection C0 as <-.
  apply concat_res_app in B4 as (o1 & o' & O1 & O2 & ->). apply concat_res_cons in O2 as (o0 & o2 & O0 & O2 & ->). cbn [fst snd] in O0.
  assert (Alt : forall acts, alter_table d (t_name x) acts = [SAlterTable (t_name x) acts]) by (destruct Hd as [-> | ->]; reflexivity).
  match type of B with Ok (_ ++ ?cs ++ _ ++ ?fs) = Ok _ => assert (Ecs : cs = [SAlterTable (t_name x) (c1 ++ AAddColumn cd :: (c2 ++ nc))]);
    [rewrite <- app_assoc; simpl; destruct c1; simpl; apply Alt|]; set (Fin := fs) in * end.
  assert (EF : exists fin, Fin = [SAlterTable (t_name x) fin] /\ forall b, In b fin -> last_act d x y b).
  { subst Fin. match goal with |- context [match ?z with [] => [] | _ :: _ => _ end] => exists z; split; [destruct z as [|z0 zs] eqn:Ez; [exfalso; apply app_eq_nil in Ez as [Ez _]; rewrite Em in Ez; destruct m1; discriminate|apply Alt]|] end.
    intros b' Ib. rewrite !in_app_iff in Ib. destruct Ib as [Ix|[Ix|[Ix|[Ix|Ix]]]].
    - apply in_map_iff in Ix as (p & <- & Ip). destruct (Hm p Ip). eapply la_hard; eauto.
    - destruct (concat_res_in _ _ _ _ B5 Ix) as (p & r & Ip & Hr & Ir). eapply la_alter; [apply (inter_common x y p Ip)|exact Hr|exact Ir].
    - apply in_map_iff in Ix as (c & <- & Ic). apply difference_in in Ic as [Ic Nc]. eapply la_drop; eauto.
    - apply in_map_iff in Ix as (k & <- & _). apply la_cons. eauto.
    - apply in_map_iff in Ix as (k & <- & _). apply la_cons. eauto. }
  destruct EF as (fin & EF & Hfin). rewrite Ecs, EF in B. injection B as <-.
  constructor. exists s1, a, s2, c1, cd, (c2 ++ nc), o1, o0, o2, fin,
    (match d with DPg => pg_column_comments x y ++ match comment_change (t_desc x) (t_desc y) with Some c => [SCommentTable (t_name y) c] | None => [] end | DMySQL => my_table_comment x y | _ => [] end).
  split. { rewrite Es0. destruct Hd as [-> | ->]; simpl; rewrite <- ?app_assoc; simpl; rewrite <- ?app_assoc; reflexivity. }
  split; [exact Ea|]. split; [exact Ecd|]. split; [exact O0|].
  split. { intros st I. apply in_app_or in I as [I|I].
    - destruct (concat_res_in _ _ _ _ S1 I) as (p & r & Ip & Hr & Ir). destruct (soft_drop_column d (fst p)) as [b|] eqn:Eb; cbn [bind] in Hr; [|discriminate]. injection Hr as <-. rewrite Alt in Ir. destruct Ir as [<-|[]].
      exists p, b. split; [apply Op, in_or_app; auto|auto].
    - destruct (concat_res_in _ _ _ _ S2 I) as (p & r & Ip & Hr & Ir). destruct (soft_drop_column d (fst p)) as [b|] eqn:Eb; cbn [bind] in Hr; [|discriminate]. injection Hr as <-. rewrite Alt in Ir. destruct Ir as [<-|[]].
      exists p, b. split; [apply Op, in_or_app; auto|auto]. }
  split. { intros b I. rewrite !in_app_iff in I.
    assert (G : forall m r, map_res (fun p => create_column d (snd p)) m = Ok r -> (forall p, In p m -> In p (m1 ++ m2)) -> In b r -> exists w cdw, In w (t_columns y) /\ c_name w <> c_name v /\ column_def d w = Ok cdw /\ b = AAddColumn cdw).
    { intros m r Hr Sub Ir. destruct (map_res_inv _ _ _ _ Hr Ir) as (p & Ip & Hp). unfold create_column in Hp. destruct (column_def d (snd p)) as [cdw|] eqn:Ew; cbn [bind] in Hp; [|discriminate]. injection Hp as <-.
      destruct (Op p (Sub p Ip)) as ((P1 & P2 & P3) & _ & P4). exists (snd p), cdw. split; [exact P2|]. split; [|auto]. rewrite <- P3. destruct Cu as (_ & _ & <-). exact P4. }
    destruct I as [I|[I|I]].
    - eapply G; [exact C1| |exact I]. intros p Ip. apply in_or_app; auto.
    - eapply G; [exact C2| |exact I]. intros p Ip. apply in_or_app; auto.
    - destruct (map_res_inv _ _ _ _ B3 I) as (w & Iw & Hw). unfold create_column in Hw. destruct (column_def d w) as [cdw|] eqn:Ew; cbn [bind] in Hw; [|discriminate]. injection Hw as <-.
      apply difference_in in Iw as [Iw Nw]. exists w, cdw. split; [exact Iw|]. split; [|auto]. intros E. apply Nw. rewrite E. destruct Cu as (Iu & _ & <-). now apply in_map. }
  split. { intros st I. apply in_app_or in I as [I|I].
    - destruct (concat_res_in _ _ _ _ O1 I) as (p & r & Ip & Hr & Ir). exists p, r. split; [apply Op, in_or_app; auto|auto].
    - destruct (concat_res_in _ _ _ _ O2 I) as (p & r & Ip & Hr & Ir). exists p, r. split; [apply Op, in_or_app; auto|auto]. }
  split; [exact Hfin|].
  intros st I. destruct Hd as [-> | ->].
  - apply in_app_or in I as [I|I].
    + unfold pg_column_comments in I. apply in_flat_map in I as (c & _ & I). destruct (comment_change _ _) as [z|]; [|destruct I]. destruct I as [<-|[]]. exact Logic.I.
    + destruct (comment_change _ _) as [z|]; [|destruct I]. destruct I as [<-|[]]. exact Logic.I.
  - unfold my_table_comment in I. destruct (short_desc (t_desc x)), (short_desc (t_desc y)); try (destruct I as [<-|[]]; exact Logic.I); try (destruct I; fail).
    destruct (String.eqb _ _); [destruct I|]. destruct I as [<-|[]]. exact Logic.I.
Qed.
