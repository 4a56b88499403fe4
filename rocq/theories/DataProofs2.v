(** Stored rows of a table of both catalogs under the script of a catalog mutation. *)
From Verif Require Import PyStr QuoteModel ObjectDict ObjectDictSpec ObjectDictProofs Types Objects SqlAst Ddl Mutate DbSpec CatSpec MutSpec StmtSpec EqProofs NoopProofs KeySpec SortProofs StmtProofs StmtProofs2 DataSpec DataProofs1.
From Verif Require Import TabProofs3.
From stdpp Require Import gmap strings.
Open Scope list_scope.

(** statements that do not touch rows *)
Definition inert (s : stmt) : Prop :=
  match s with
  | SCreateSchema _ _ | SCreateEnum _ _ | SCreateStruct _ _ | SDropType _ | SRenameType _ _ | SAddValue _ _ | SAlterStruct _ _
  | SCommentTable _ _ | SCommentColumn _ _ _ | SCommentType _ _ | SMyTableComment _ _ => True
  | _ => False
  end.
Lemma inert_step S st D D' k : inert st -> stmt_step S st D D' -> D' k = D k.
Proof. destruct st; simpl; intros []; intros H; apply H. Qed.
Lemma other_step S st D D' q k : stmt_target st = Some q -> key_of q <> k -> stmt_step S st D D' -> D' k = D k.
Proof.
  intros T N H. destruct st; simpl in T, H; try discriminate; injection T as ->; try (now apply H); try (apply H; congruence).
Qed.

Section Table.
  Context (d : dialect) (o : options) (s t : catalog) (a b : namespace) (x y : table).
  Context (Ws : cat_wf d s) (Wt : cat_wf d t) (C : common_ns s t a b) (Ix : In x (n_tables a)) (Iy : In y (n_tables b)) (En : t_name x = t_name y).

  Lemma in_a n q : In n s -> In q (ns_names n) -> key_of q = key_of (t_name x) -> n = a.
  Proof.
    intros I Q K. apply (nodup_inj n_name s); [apply NoDup_ListNoDup, (cw_names _ _ Ws)|exact I|apply C|].
    rewrite <- (key_scope d s n q Ws I Q), K. apply (key_scope d s a _ Ws); [apply C|now apply names_table].
  Qed.
  Lemma in_b n q : In n t -> In q (ns_names n) -> key_of q = key_of (t_name x) -> n = b.
  Proof.
    intros I Q K. apply (nodup_inj n_name t); [apply NoDup_ListNoDup, (cw_names _ _ Wt)|exact I|apply C|].
    rewrite <- (key_scope d t n q Wt I Q), K, En. apply (key_scope d t b _ Wt); [apply C|now apply names_table].
  Qed.
  Lemma key_stmt_source st q : cat_stmt d o s t st -> stmt_target st = Some q -> key_of q = key_of (t_name x) ->
    inert st \/ adds_rows st \/ exists l, mutate_table d x y = Ok l /\ In st l.
  Proof.
    intros H T K. assert (Ca : In a s) by apply C. assert (Cb : In b t) by apply C. assert (Wa := cw_ns _ _ Ws a Ca). assert (Wb := cw_ns _ _ Wt b Cb).
    assert (Kl : forall p, key_of p = key_of (t_name x) -> local_id p = local_id (t_name x)) by (unfold key_of; congruence).
    assert (Rm : forall n p, removed_ns s t n -> In p (ns_names n) -> key_of p = key_of (t_name x) -> False).
    { intros n p [R1 R2] Q Kp. assert (n = a) by (eapply in_a; eauto). subst n. destruct C as (_ & C2 & C3). apply R2. rewrite C3. now apply in_map. }
    destruct H as [m I N (c' & E)|m q' I N E I' Ds|a' b' (C1 & C2 & C3) H|m z acts R I E H|m z A R I E|m q' A R I E|m c' A R E]; try (subst; discriminate).
    - exfalso. assert (q' = q) by congruence. subst q'. assert (m = b) by (eapply in_b; eauto). subst m.
      apply N. destruct C as (C1 & _ & C3). rewrite <- C3. now apply in_map.
    - assert (Ab : forall p, In p (ns_names b') -> key_of p = key_of (t_name x) -> b' = b /\ a' = a).
      { intros p Q Kp. assert (Z : b' = b) by (eapply in_b; eauto). split; [exact Z|]. subst b'.
        apply (nodup_inj n_name s); auto; [apply NoDup_ListNoDup, (cw_names _ _ Ws)|]. rewrite C3. symmetry. apply C. }
      assert (Aa : forall p, In p (ns_names a') -> key_of p = key_of (t_name x) -> b' = b /\ a' = a).
      { intros p Q Kp. assert (Z : a' = a) by (eapply in_a; eauto). split; [|exact Z]. subst a'.
        apply (nodup_inj n_name t); auto; [apply NoDup_ListNoDup, (cw_names _ _ Wt)|]. rewrite <- C3. apply C. }
      destruct H as [z I N T' Ds|z I N T' Ds|z I N T' Ds|e z Ie Ne Iz Nz Eq Es|z w Iz Iw E T' Ds|z w Iz Iw E T' Ds|z w l Iz Iw E H I|z A I N Es|z A I N Es|z A I N Es].
      + exfalso. assert (t_name z = q) by congruence. subst q. destruct (Ab _ (names_table _ _ I) K) as [-> ->]. apply N. unfold t_key. rewrite (Kl _ K). now apply (in_map t_key).
      + exfalso. assert (s_name z = q) by congruence. subst q. destruct (Ab _ (names_struct _ _ I) K) as [-> ->]. apply (kind_table_struct d b y z Wb Iy I). rewrite (Kl _ K). congruence.
      + exfalso. assert (e_name z = q) by congruence. subst q. destruct (Ab _ (names_enum _ _ I) K) as [-> ->]. apply (kind_table_enum d b y z Wb Iy I). rewrite (Kl _ K). congruence.
      + left. subst st. exact Logic.I.
      + exfalso. assert (e_name z = q) by congruence. subst q. destruct (Aa _ (names_enum _ _ Iz) K) as [-> ->]. apply (kind_table_enum d a x z Wa Ix Iz). now rewrite (Kl _ K).
      + exfalso. destruct T' as [T'|T'].
        * assert (s_name z = q) by congruence. subst q. destruct (Aa _ (names_struct _ _ Iz) K) as [-> ->]. apply (kind_table_struct d a x z Wa Ix Iz). now rewrite (Kl _ K).
        * assert (s_name w = q) by congruence. subst q. destruct (Ab _ (names_struct _ _ Iw) K) as [-> ->]. apply (kind_table_struct d b y w Wb Iy Iw). rewrite (Kl _ K). congruence.
      + assert (G : key_of (t_name z) = key_of (t_name x) \/ key_of (t_name w) = key_of (t_name x) -> inert st \/ adds_rows st \/ exists l, mutate_table d x y = Ok l /\ In st l).
        { intros Q. assert (Hk : b' = b /\ a' = a) by (destruct Q as [Q|Q]; [apply (Aa _ (names_table _ _ Iz) Q)|apply (Ab _ (names_table _ _ Iw) Q)]). destruct Hk as [-> ->].
          assert (Kz : t_key z = t_key x) by (unfold t_key in *; destruct Q as [Q|Q]; apply Kl in Q; congruence).
          assert (Kw : t_key w = t_key y) by (unfold t_key in *; congruence).
          assert (z = x) by (apply (nodup_inj t_key (n_tables a)); auto; now apply (table_keys_nodup d)).
          assert (w = y) by (apply (nodup_inj t_key (n_tables b)); auto; now apply (table_keys_nodup d)). subst. right. right. eauto. }
        destruct (mutate_table_in d z w l st H I) as [(acts & -> & _)|[(c & ->)|[(n & c & ->)|[(c & ->)|[(q' & cs & rows & oc & n & k & rc & -> & Z)|[(q' & c & n & k & rc & -> & Z)|(u & v & q' & _ & _ & ->)]]]]]];
          injection T as <-; auto; right; left; exact Logic.I.
      + exfalso. subst st. injection T as <-. destruct (Aa _ (names_table _ _ I) K) as [-> ->]. apply N. unfold t_key at 1. rewrite (Kl _ K), En. now apply (in_map t_key).
      + left. subst st. exact Logic.I.
      + left. destruct Es as [->|[-> _]]; exact Logic.I.
    - exfalso. subst st. injection T as <-. apply (Rm m _ R (names_table _ _ I) K).
    - exfalso. subst st. injection T as <-. apply (Rm m _ R (names_table _ _ I) K).
    - left. subst st. exact Logic.I.
  Qed.

  Context (S : server) (L : lawful S).
  Lemma table_keeps l st D D' : mutate_table d x y = Ok l -> In st l -> stmt_step S st D D' ->
    extends S (retained x y) (D (key_of (t_name x))) (D' (key_of (t_name x))).
  Proof.
    intros M I H. assert (Wx := nw_table _ _ (cw_ns _ _ Ws a (proj1 C)) x Ix). assert (Wy := nw_table _ _ (cw_ns _ _ Wt b (proj1 (proj2 C))) y Iy).
    assert (Nx : List.NoDup (map c_name (t_columns x))) by (apply NoDup_ListNoDup, (tw_cols _ _ Wx)). assert (Ny : List.NoDup (map c_name (t_columns y))) by (apply NoDup_ListNoDup, (tw_cols _ _ Wy)).
    assert (Ac : forall q acts act, st = SAlterTable q acts -> In act acts -> table_act d x y act) by (intros q acts act -> Ia; eapply mutate_table_acts; eauto).
    destruct (mutate_table_in d x y l st M I) as [(acts & -> & _)|[(c & ->)|[(n & c & ->)|[(c & ->)|[(q' & cs & rows & oc & n & k & rc & -> & Z)|[(q' & c & n & k & rc & -> & Z)|(u & v & q' & Cu & Tu & ->)]]]]]].
    - destruct H as [H _]. apply extends_same. apply (on_rows_keeps S L _ acts); [|exact H]. intros act Ia c ty idn R. apply (table_act_calm d x y Nx Ny); eauto.
    - rewrite (H _). apply extends_refl.
    - rewrite (H _). apply extends_refl.
    - rewrite (H _). apply extends_refl.
    - destruct H as [H1 H2]. destruct (decide (key_of (t_name x) = key_of q')) as [E|E]; [|rewrite (H2 _ E); apply extends_refl]. rewrite E.
      apply insert_rows_extends in H1 as (new & ->). apply new_extends.
    - destruct H as [H1 H2]. destruct (decide (key_of (t_name x) = key_of q')) as [E|E]; [|rewrite (H2 _ E); apply extends_refl]. rewrite E.
      destruct H1 as ((new & ->) & _). apply new_extends.
    - destruct H as [H1 _]. apply extends_same. eapply Forall2_impl; [exact H1|]. intros r r' Lk c ty idn R _ _.
      destruct Lk as [(e & la & lb & _ & _ & _ & _ & Sm)|(_ & Sm)]; rewrite Sm; [|reflexivity]. apply set_cell_ne. intros ->.
      destruct R as (p & w & Ip & Iw & Np & Nw & Tp & Tw & _). destruct Cu as (Iu & Iv & Ec).
      assert (u = p) by (apply (nodup_inj c_name (t_columns x)); auto; congruence). assert (v = w) by (apply (nodup_inj c_name (t_columns y)); auto; congruence). congruence.
  Qed.
  Lemma stmt_extends st D D' : cat_stmt d o s t st -> stmt_step S st D D' -> extends S (retained x y) (D (key_of (t_name x))) (D' (key_of (t_name x))).
  Proof.
    intros H Hs. destruct (stmt_target st) as [q|] eqn:T.
    - destruct (decide (key_of q = key_of (t_name x))) as [K|K]; [|rewrite (other_step S st D D' q _ T K Hs); apply extends_refl].
      destruct (key_stmt_source st q H T K) as [In_|[A|(l & M & I)]].
      + rewrite (inert_step S st D D' _ In_ Hs). apply extends_refl.
      + destruct st; try (destruct A); simpl in T, Hs; injection T as ->; destruct Hs as [Hs _]; rewrite <- K.
        * apply insert_rows_extends in Hs as (new & ->). apply new_extends.
        * destruct Hs as ((new & ->) & _). apply new_extends.
      + eapply table_keeps; eauto.
    - destruct st; try discriminate; simpl in Hs.
      + rewrite Hs. apply extends_refl.
      + rewrite Hs. apply drop_schema_source in H as (_ & m & [R1 R2] & E). destruct (String.eqb_spec (fst (key_of (t_name x))) n) as [Q|Q]; [|apply extends_refl].
        exfalso. assert (n_name m = n_name a). { rewrite E, <- Q. apply (key_scope d s a _ Ws); [apply C|now apply names_table]. }
        apply R2. rewrite H. destruct C as (_ & Cb & ->). now apply in_map.
  Qed.
  Lemma script_extends l D D' : (forall st, In st l -> cat_stmt d o s t st) -> script S l D D' -> extends S (retained x y) (D (key_of (t_name x))) (D' (key_of (t_name x))).
  Proof.
    revert D. induction l as [|st l IH]; intros D H Hs; simpl in Hs; [rewrite Hs; apply extends_refl|]. destruct Hs as (M & H1 & H2).
    eapply extends_trans; [eapply stmt_extends; eauto; apply H; now left|]. apply IH; auto. intros; apply H; now right.
  Qed.
End Table.
