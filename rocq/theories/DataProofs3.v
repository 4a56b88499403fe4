(** Stored rows under a table mutation that moves a column into a lookup table. *)
From Verif Require Import PyStr QuoteModel ObjectDict ObjectDictSpec ObjectDictProofs Types Objects SqlAst Ddl Mutate DbSpec CatSpec MutSpec StmtSpec EqProofs NoopProofs KeySpec SortProofs StmtProofs StmtProofs2 DataSpec DataProofs1 DataProofs2.
From Verif Require Import TabProofs3.
From stdpp Require Import gmap strings.
Open Scope list_scope.

Lemma script_app S l1 l2 D D' : script S (l1 ++ l2) D D' <-> exists M, script S l1 D M /\ script S l2 M D'.
Proof.
  revert D. induction l1 as [|st l1 IH]; intros D; simpl.
  - split.
    + intros H. exists D. auto.
    + intros (M & E & H). (* stores are equal pointwise *)
      revert D M E H. induction l2 as [|st l2 IH]; intros D M E H; simpl in *.
      * intros k. now rewrite H.
      * destruct H as (M2 & H1 & H2). exists M2. split; [|exact H2]. destruct st; simpl in *; unfold at_key in *; try (intros k; rewrite H1; try rewrite E; reflexivity);
          try (destruct H1 as [A B]; split; [rewrite <- ?E; exact A|intros k K; rewrite (B k K); apply E]).
        all: try (destruct H1 as [Z [A B]]; split; [now rewrite <- E|]; split; [exact A|]; intros k K; rewrite (B k K); apply E).
  - split.
    + intros (M & H1 & H2). apply IH in H2 as (M' & A & B). exists M'. split; [|exact B]. exists M. auto.
    + intros (M & (M' & A & B) & H). exists M'. split; [exact A|]. apply IH. eauto.
Qed.
Lemma concat_res_app {A B} (f : A -> res (list B)) l1 l2 r : concat_res f (l1 ++ l2) = Ok r ->
  exists r1 r2, concat_res f l1 = Ok r1 /\ concat_res f l2 = Ok r2 /\ r = r1 ++ r2.
Proof.
  unfold concat_res. revert r. induction l1 as [|a l1 IH]; intros r H; simpl in *.
  - exists [], r. auto.
  - destruct (f a) as [x|]; simpl in *; [|discriminate]. destruct (map_res f (l1 ++ l2)) as [y|] eqn:E; simpl in *; [|discriminate]. injection H as <-.
    destruct (IH _ eq_refl) as (r1 & r2 & E1 & E2 & E3). destruct (map_res f l1) as [z|]; simpl in *; [|discriminate]. injection E1 as <-.
    eexists _, r2. split; [reflexivity|]. split; [exact E2|]. simpl. now rewrite E3, app_assoc.
Qed.
Lemma concat_res_cons {A B} (f : A -> res (list B)) a l r : concat_res f (a :: l) = Ok r ->
  exists r1 r2, f a = Ok r1 /\ concat_res f l = Ok r2 /\ r = r1 ++ r2.
Proof.
  unfold concat_res. simpl. destruct (f a) as [x|]; simpl; [|discriminate]. destruct (map_res f l) as [y|] eqn:E; simpl; [|discriminate]. intros [= <-].
  eexists _, _. split; [reflexivity|]. split; reflexivity.
Qed.
Lemma map_res_split {A B} (f : A -> res B) l1 a l2 r : map_res f (l1 ++ a :: l2) = Ok r ->
  exists r1 b r2, map_res f l1 = Ok r1 /\ f a = Ok b /\ map_res f l2 = Ok r2 /\ r = r1 ++ b :: r2.
Proof.
  revert r. induction l1 as [|c l1 IH]; intros r H; simpl in *.
  - destruct (f a) as [b|]; simpl in *; [|discriminate]. destruct (map_res f l2) as [y|] eqn:E; simpl in *; [|discriminate]. injection H as <-. exists [], b, y. auto.
  - destruct (f c) as [x|]; simpl in *; [|discriminate]. destruct (map_res f (l1 ++ a :: l2)) as [y|] eqn:E; simpl in *; [|discriminate]. injection H as <-.
    destruct (IH _ eq_refl) as (r1 & b & r2 & E1 & E2 & E3 & ->). rewrite E1. simpl. exists (x :: r1), b, r2. auto.
Qed.
Lemma forall2_trans {A} (R Q T : A -> A -> Prop) : (forall x y z, R x y -> Q y z -> T x z) ->
  forall a b c, Forall2 R a b -> Forall2 Q b c -> Forall2 T a c.
Proof. intros H a. induction a; intros b c A1 A2; inversion A1; subst; inversion A2; subst; constructor; eauto. Qed.
Lemma forall2_refl {A} (R : A -> A -> Prop) l : (forall x, R x x) -> Forall2 R l l.
Proof. intros H. induction l; constructor; auto. Qed.
Lemma on_rows_app S a1 a2 rows rows' : on_rows S (a1 ++ a2) rows rows' <-> exists mid, on_rows S a1 rows mid /\ on_rows S a2 mid rows'.
Proof.
  revert rows. induction a1 as [|a a1 IH]; intros rows; simpl.
  - split; [intros H; exists rows; auto|]. intros (m & -> & H). exact H.
  - split.
    + intros (m & H1 & H2). apply IH in H2 as (m' & A & B). exists m'. split; [|exact B]. exists m. auto.
    + intros (m & (m' & A & B) & H). exists m'. split; [exact A|]. apply IH. eauto.
Qed.

(** the action does not mention column [c] *)
Definition avoids (c : string) (a : action) : Prop :=
  match a with
  | AAddColumn cd => cd_name cd <> c
  | ADropColumn n | ADropDefaultColumn _ n => n <> c
  | ARenameColumn n m => n <> c /\ m <> c
  | AChangeColumn n cd => n <> c /\ cd_name cd <> c
  | ASetType n _ | AMsAlter n _ _ | AOraModify n _ => n <> c
  | AModifyColumn cd => cd_name cd <> c
  | _ => True
  end.
(** a set of cells is kept *)
Definition same_on (P : string -> Prop) (r r' : record) : Prop := forall c, P c -> r' c = r c.
Lemma same_on_refl P r : same_on P r r.
Proof. intros c _. reflexivity. Qed.
Lemma same_on_trans P r s t : same_on P r s -> same_on P s t -> same_on P r t.
Proof. intros A B c H. now rewrite (B c H), (A c H). Qed.
Section Rows.
  Context (S : server).
  Lemma avoids_cell a r r' c : on_row S a r r' -> avoids c a -> r' c = r c.
  Proof.
    intros H K. destruct a; simpl in H, K; try (exact (H c)).
    - destruct H as (v & _ & E). rewrite E. apply set_cell_ne. congruence.
    - rewrite H. apply set_cell_ne. congruence.
    - rewrite H. apply set_cell_ne. congruence.
    - destruct K as [K1 K2]. rewrite H, set_cell_ne by congruence. apply set_cell_ne. congruence.
    - destruct K as [K1 K2]. destruct H as (v & _ & E). rewrite E, set_cell_ne by congruence. apply set_cell_ne. congruence.
    - destruct H as (v & _ & E). rewrite E. apply set_cell_ne. congruence.
    - destruct H as (v & _ & E). rewrite E. apply set_cell_ne. congruence.
    - destruct H as (v & _ & E). rewrite E. apply set_cell_ne. congruence.
    - destruct H as [(t & I & v & _ & E)|(_ & H)]; [|exact (H c)]. rewrite E. apply set_cell_ne. congruence.
  Qed.
  Lemma avoids_rows (P : string -> Prop) acts rows rows' : on_rows S acts rows rows' -> (forall a c, In a acts -> P c -> avoids c a) -> Forall2 (same_on P) rows rows'.
  Proof.
    revert rows. induction acts as [|a acts IH]; intros rows H K; simpl in H; [subst; apply forall2_refl; intros; apply same_on_refl|].
    destruct H as (m & H1 & H2). eapply forall2_trans; [apply same_on_trans| |apply IH; [exact H2|intros; apply K; auto; now right]].
    eapply Forall2_impl; [exact H1|]. intros r r' Hr c Hc. eapply avoids_cell; eauto. apply K; auto. now left.
  Qed.
  (** a script that keeps cells of the rows of one table *)
  Definition keeps_at (P : string -> Prop) (k : okey) (l : list stmt) : Prop := forall D D', script S l D D' -> Forall2 (same_on P) (D k) (D' k).
  Lemma keeps_at_nil P k : keeps_at P k [].
  Proof. intros D D' H. simpl in H. rewrite H. apply forall2_refl. intros. apply same_on_refl. Qed.
  Lemma keeps_at_app P k l1 l2 : keeps_at P k l1 -> keeps_at P k l2 -> keeps_at P k (l1 ++ l2).
  Proof. intros A B D D' H. apply script_app in H as (M & H1 & H2). eapply forall2_trans; [apply same_on_trans|apply A, H1|apply B, H2]. Qed.
  Lemma keeps_at_all P k l : (forall st D D', In st l -> stmt_step S st D D' -> Forall2 (same_on P) (D k) (D' k)) -> keeps_at P k l.
  Proof.
    induction l as [|st l IH]; intros H; [apply keeps_at_nil|]. intros D D' (M & H1 & H2).
    eapply forall2_trans; [apply same_on_trans|eapply H; eauto; now left|]. apply IH; auto. intros; eapply H; eauto. now right.
  Qed.
  (** rows of a table only grow *)
  Definition grows_at (k : okey) (l : list stmt) : Prop := forall D D', script S l D D' -> exists new, D' k = D k ++ new.
  Lemma grows_at_all k l : (forall st D D', In st l -> stmt_step S st D D' -> exists new, D' k = D k ++ new) -> grows_at k l.
  Proof.
    induction l as [|st l IH]; intros H D D' Hs; [simpl in Hs; rewrite Hs; exists []; now rewrite app_nil_r|]. destruct Hs as (M & H1 & H2).
    destruct (H st D M (or_introl eq_refl) H1) as (n1 & E1). destruct (IH (fun st D D' I => H st D D' (or_intror I)) M D' H2) as (n2 & E2).
    exists (n1 ++ n2). now rewrite E2, E1, app_assoc.
  Qed.
End Rows.
