(** Proofs about closed catalogs, part 4: lookup and join tables, names of tables, the catalog. *)
From Verif Require Import PyStr QuoteModel ObjectDict ObjectDictProofs Types Objects Compat Convert ConvertSpec ConvertProofs CloseSpec CloseProofs1 CloseProofs2 CloseProofs3.
From Coq Require Import Permutation Lia.
Open Scope string_scope.

(** ** Collections *)
Lemma make_keep {A} (key : A -> string) l x : In x l -> (forall y, In y l -> key y = key x -> y = x) -> In x (od_make key l).
Proof.
  intros I U. pose proof (make_get key l (key x)) as G.
  destruct (od_get key (key x) (rev l)) as [y|] eqn:E.
  - apply get_some in E as [Iy Ky]. apply in_rev in Iy. rewrite (U y Iy Ky) in G. apply get_some in G. tauto.
  - exfalso. apply get_none in E. apply E. apply in_map. now apply -> in_rev.
Qed.
Lemma sort_names_in l c : In c (sort_names l) <-> In c l.
Proof. unfold sort_names. split; apply Permutation_in; [symmetry|]; apply sort_perm. Qed.

Definition multi_in {A} (d : list (string * list A)) (k : string) (x : A) : Prop := exists g, In (k, g) d /\ In x g.
Lemma multi_add_in {A} (k : string) (x : A) d m y : multi_in (multi_add k x d) m y <-> multi_in d m y \/ (m = k /\ y = x).
Proof.
  unfold multi_in. induction d as [|[j l] d IH]; simpl.
  - split.
    + intros (g & [[= <- <-]|[]] & [<-|[]]). auto.
    + intros [(g & [] & _)|[-> ->]]. exists [x]. simpl. auto.
  - destruct (String.eqb j k) eqn:E; simpl.
    + apply String.eqb_eq in E. subst j. split.
      * intros (g & [[= <- <-]|I] & J); [apply in_app_iff in J as [J|[<-|[]]]; [left; exists l; auto|auto]|left; eauto].
      * intros [(g & [[= <- <-]|I] & J)|[-> ->]]; [exists (l ++ [x])%list; split; [auto|apply in_app_iff; auto]|eauto|].
        exists (l ++ [x])%list. split; [auto|]. apply in_app_iff. simpl. auto.
    + split.
      * intros (g & [[= <- <-]|I] & J); [left; eauto|]. destruct (proj1 IH (ex_intro _ g (conj I J))) as [(g' & I' & J')|H]; [left; eauto|auto].
      * intros [(g & [[= <- <-]|I] & J)|H]; [eauto| |]; [destruct (proj2 IH (or_introl (ex_intro _ g (conj I J)))) as (g' & I' & J')|
          destruct (proj2 IH (or_intror H)) as (g' & I' & J')]; eauto.
Qed.
Lemma multi_add_keys {A} (k : string) (x : A) d : NoDup (map fst d) -> NoDup (map fst (multi_add k x d)).
Proof.
  induction d as [|[j l] d IH]; simpl; intros N; [constructor; auto|].
  destruct (String.eqb j k) eqn:E; simpl; [exact N|]. inversion N as [|? ? N1 N2]; subst. constructor; [|auto].
  intros I. apply N1. clear - I E. induction d as [|[i m] d IH]; simpl in *; [destruct I as [->|[]]; rewrite String.eqb_refl in E; discriminate|].
  destruct (String.eqb i k); simpl in I; [exact I|]. destruct I as [I|I]; auto.
Qed.
Lemma multi_of_in {A} (l : list (string * A)) m y : multi_in (multi_of l) m y <-> In (m, y) l.
Proof.
  unfold multi_of.
  assert (G : forall l d, multi_in (fold_left (fun d p => multi_add (fst p) (snd p) d) l d) m y <-> multi_in d m y \/ In (m, y) l).
  { intros q. induction q as [|[k x] q IH]; simpl; intros d; [tauto|]. rewrite IH, multi_add_in. simpl.
    split; [intros [[H|[-> ->]]|H]; auto|intros [H|[[= <- <-]|H]]; auto]. }
  rewrite G. split; [intros [(g & [] & _)|H]; exact H|auto].
Qed.
Lemma multi_of_keys {A} (l : list (string * A)) : NoDup (map fst (multi_of l)).
Proof.
  unfold multi_of. assert (G : forall l (d : list (string * list A)), NoDup (map fst d) -> NoDup (map fst (fold_left (fun d p => multi_add (fst p) (snd p) d) l d))).
  { intros q. induction q as [|p q IH]; simpl; intros d N; [exact N|]. apply IH. now apply multi_add_keys. }
  apply G. constructor.
Qed.
Lemma multi_get_in {A} (d : list (string * list A)) k x : In x (multi_get k d) -> multi_in d k x.
Proof.
  unfold multi_get. destruct (find _ d) as [[j g]|] eqn:E; [|intros []]. apply find_some in E as [I E]. simpl in E.
  apply String.eqb_eq in E. subst. intros H. exists g. auto.
Qed.
Lemma multi_get_complete {A} (d : list (string * list A)) k x : NoDup (map fst d) -> multi_in d k x -> In x (multi_get k d).
Proof.
  intros N (g & I & J). unfold multi_get. induction d as [|[j h] d IH]; simpl in *; [tauto|].
  inversion N as [|? ? N1 N2]; subst. destruct (String.eqb j k) eqn:E.
  - apply String.eqb_eq in E. subst j. destruct I as [[= <-]|I]; [exact J|]. exfalso. apply N1. apply in_map_iff. exists (k, g). auto.
  - destruct I as [[= -> _]|I]; [rewrite String.eqb_refl in E; discriminate|]. auto.
Qed.

(** ** Names *)
Lemma underscore_app a b : underscore (a ++ b) <-> underscore a \/ underscore b.
Proof. induction a as [|c a IH]; simpl; [tauto|]. rewrite IH. tauto. Qed.
Lemma split_underscore a : forall b x y, ~ underscore a -> ~ underscore b -> (a ++ "_" ++ x)%string = (b ++ "_" ++ y)%string -> a = b /\ x = y.
Proof.
  induction a as [|c a IH]; intros [|d b] x y Na Nb H; simpl in *.
  - injection H as ->. auto.
  - injection H as <- _. exfalso. apply Nb. now left.
  - injection H as -> _. exfalso. apply Na. now left.
  - injection H as <- H. destruct (IH b x y) as [-> ->]; auto.
Qed.

Section Close4.
Context (env : cid -> classdef) (o : copts) (refs : list cid) (fuel : nat).
Hypothesis HO : ordinary env o refs.
Hypothesis HC : complete env refs.

Lemma enum_table_facts e t : In e refs -> enum_table env o fuel e = Ok t ->
  class_qid o e = Ok (t_name t) /\ t_pk t = ["id"] /\ (forall s, enum_key_sql o = Ok s -> has_column t "id" s) /\
  (forall k cols q keys, In k (t_constraints t) -> ~ refers k cols q keys) /\ is_enum_cls env e = true.
Proof.
  intros Ie H. unfold enum_table in H. binds H. binds H. destruct (env e) as [|vs|] eqn:K; try discriminate. binds H. binds H. injection H as <-.
  unfold make_table. simpl. split; [exact E|]. split; [reflexivity|].
  assert (X : ~ In "id" (map c_name (fst v2)) /\ forall k, In k (snd v2) -> exists n l, k = CUnique n l).
  { destruct v1; try discriminate.
    - binds E2. injection E2 as <-. simpl. split; [intuition discriminate|]. intros k [<-|[]]. eauto.
    - binds E2. injection E2 as <-. simpl. split; [intuition discriminate|]. intros k [<-|[]]. eauto.
    - destruct (env c) as [fs a d ps| |] eqn:KC; try discriminate. binds E2. injection E2 as <-. simpl. split; [|intros k []].
      apply names_of in E3. rewrite E3. unfold enum_value_type in E1. destruct (nodup vtype_eq_dec (map ev_type vs)) as [|x [|y l]] eqn:NV; try discriminate.
      injection E1 as ->. assert (I : In (VtCls c) (map ev_type vs)) by (apply (nodup_In vtype_eq_dec); rewrite NV; now left).
      apply in_map_iff in I as (w & W & Iw). destruct w; simpl in W; try discriminate. injection W as ->.
      apply (ord_values _ _ _ HO e vs c vs0 text Ie K Iw). }
  destruct X as [X1 X2]. split; [|split].
  - intros s Es. assert (s = v0) by congruence. subst s. exists (Col "id" v0 false None true None). split; [|auto].
    apply make_keep; [now left|]. intros y [<-|Iy] Ky; [reflexivity|]. exfalso. apply X1. simpl in Ky. rewrite <- Ky. now apply in_map.
  - intros k cols q keys I R. apply make_in in I. apply X2 in I as (n & l & ->). inversion R.
  - unfold is_enum_cls. now rewrite K.
Qed.

Definition join_name (c : cid) (f : dfield) (r : cid) : string := snd c ++ "_" ++ f_name f ++ "_" ++ snd r.
Lemma app_assoc_s a b c : ((a ++ b) ++ c)%string = (a ++ (b ++ c))%string.
Proof. induction a; simpl; [reflexivity|]. now f_equal. Qed.

Lemma join_columns q cols pk ks d vs n s : NoDup (map c_name cols) -> In (Col n s false None false None) cols -> has_column (make_table q cols pk ks d vs) n s.
Proof.
  intros N I. exists (Col n s false None false None). split; [|auto]. cbn [t_columns make_table]. apply make_keep; [exact I|].
  intros y Iy K. clear - N I Iy K. induction cols as [|z zs IH]; [destruct I|]. simpl in N. inversion N as [|? ? N1 N2]; subst.
  destruct I as [->|I], Iy as [->|Iy]; auto; exfalso; apply N1; [rewrite <- K|rewrite K]; now apply in_map.
Qed.

Lemma three_names (a b c : string) (u v w : sqltype) : a <> b -> a <> c -> b <> c ->
  NoDup (map c_name [Col a u false None false None; Col b v false None false None; Col c w false None false None]).
Proof. intros. simpl. repeat constructor; simpl; intuition congruence. Qed.

Lemma join_table_facts es c f l m t : In c refs -> In f (data_fields env c) -> is_entity_cls env c = true ->
  (forall e, o_enum o = EmRelation -> item_enum env (required_type f) = [e] -> In e es) ->
  join_table env o fuel c f = Ok l -> In (m, t) l ->
  m = fst c /\ (exists r, qualified_id_of o (fst c) (join_name c f r) = Ok (t_name t)) /\
  (forall k cols q keys, In k (t_constraints t) -> refers k cols q keys -> resolved env o refs es t cols q keys).
Proof.
  intros Ic If Ec Hes H I. unfold join_table in H. destruct (relationship env o (f_type f)) as [[b item]|] eqn:R; [|injection H as <-; destruct I].
  binds H. binds H. destruct v0 as [[r rk] rs]. binds H. binds H. binds H. binds H. binds H. binds H. binds H. injection H as <-.
  destruct I as [[= <- <-]|[]]. split; [reflexivity|]. split.
  { exists r. unfold join_name. simpl. rewrite <- E4. now rewrite !app_assoc_s. }
  (* the right class *)
  assert (Rr : mentions (f_type f) r /\ (is_entity_cls env r = true /\ key_name_of env r = Ok rk /\ (exists k, key_type_of env r = Ok k /\ member_sql env o fuel k = Ok rs) \/
               In r es /\ is_enum_cls env r = true /\ rk = "id" /\ enum_key_sql o = Ok rs)).
  { destruct (entity_of env item) as [x|] eqn:En.
    - binds E0. binds E0. binds E0. injection E0 as <- <- <-. split; [apply (mentions_relationship env o _ _ _ _ R); now apply (entity_mentions env)|].
      left. split; [now apply entity_cls in En|]. split; [assumption|]. eauto.
    - destruct (o_enum o) eqn:OE; try discriminate. destruct (unwrap item) eqn:Ui; try discriminate.
      destruct (is_enum_cls env c0) eqn:Ee; [|discriminate]. binds E0. injection E0 as <- <- <-. split.
      + apply (mentions_relationship env o _ _ _ _ R), mentions_unwrap. rewrite Ui. constructor.
      + right. split; [|auto]. apply Hes; [reflexivity|]. destruct (relationship_items _ _ _ _ _ R) as [IT _].
        unfold required_type. destruct (evaluate_cases (field_type (field_properties (f_type f))) _ eq_refl) as [(z & F & _)|(-> & _)]; [rewrite F in IT; discriminate|].
        unfold items_of in IT. unfold item_enum. destruct (unwrap (field_type _)); try discriminate; injection IT as ->; now rewrite Ui, Ee. }
  destruct Rr as [Mr Rr]. pose proof (proj1 (HC c f r Ic If Mr)) as Ir.
  (* names of the columns differ *)
  assert (Nc : ~ underscore (snd c)) by now apply (ord_names _ _ _ HO).
  assert (Nr : ~ underscore (snd r)) by now apply (ord_names _ _ _ HO).
  assert (Du : forall a b, "uuid"%string <> (a ++ "_" ++ b)%string).
  { intros a b' X. assert (Y : underscore "uuid") by (rewrite X; apply underscore_app; right; simpl; auto). simpl in Y. intuition discriminate. }
  assert (LR : (snd c ++ "_" ++ f_name f)%string <> (snd r ++ "_" ++ rk)%string).
  { intros X. apply split_underscore in X as [X Y]; auto.
    assert (r = c) by (symmetry in X; apply (ord_same _ _ _ HO c f r Ic If Mr X)). subst r.
    destruct Rr as [(_ & Kn & (k & Kt & _))|(_ & Ee & _)].
    - destruct (key_of env c (fun g => ord_keys _ _ _ HO c g Ic) k Kt) as (g & Ig & Kg & -> & _).
      assert (f_name g = f_name f) by congruence.
      assert (g = f).
      { pose proof (proj1 (ord_fields _ _ _ HO c Ic)) as N. clear - N Ig If H. induction (data_fields env c) as [|z zs IH]; [destruct Ig|].
        simpl in N. inversion N as [|? ? N1 N2]; subst. destruct Ig as [->|Ig], If as [->|If]; auto; exfalso; apply N1; [rewrite H|rewrite <- H]; now apply in_map. }
      subst g. assert (lt : v5 = field_type (field_properties (f_type f))) by congruence. subst v5.
      destruct (subst o (field_type (field_properties (f_type f)))) as [s0|] eqn:S0; [|eapply relationship_no_sql; eauto].
      apply subst_in in S0. apply (ord_subst _ _ _ HO) in S0 as [_ S0]. destruct (relationship_items _ _ _ _ _ R) as [IT _].
      unfold items_of in IT. destruct (unwrap (field_type (field_properties (f_type f)))) eqn:W; try discriminate; injection IT as ->;
        [apply (proj1 (S0 item))|apply (proj2 (S0 item))]; rewrite <- W; apply annotated_unwrap.
    - unfold is_enum_cls in Ee. unfold is_entity_cls in Ec. destruct (env c); discriminate. }
  intros k cols q keys Ik Rf. cbn [t_constraints make_table] in Ik. apply make_in in Ik.
  match goal with |- resolved _ _ _ _ ?T _ _ _ => set (tt := T) in * end.
  assert (CL : has_column tt (snd c ++ "_" ++ f_name f)%string v6).
  { unfold tt. apply join_columns; [|right; left; reflexivity]. apply three_names; [apply Du|apply Du|exact LR]. }
  assert (CR : has_column tt (snd r ++ "_" ++ rk)%string rs).
  { unfold tt. apply join_columns; [|right; right; left; reflexivity]. apply three_names; [apply Du|apply Du|exact LR]. }
  clearbody tt. destruct Ik as [<-|[<-|Ik]].
  - inversion Rf; subst. exists (snd c ++ "_" ++ f_name f)%string, v, v6, c. split; [reflexivity|]. split; [reflexivity|]. split; [exact CL|]. split; [assumption|]. split; [exact Ic|].
    left. split; [exact Ec|]. split; [assumption|]. eauto.
  - inversion Rf; subst. exists (snd r ++ "_" ++ rk)%string, rk, rs, r. split; [reflexivity|]. split; [reflexivity|]. split; [exact CR|]. split; [assumption|]. split; [exact Ir|].
    destruct Rr as [(A & B & (k & C & D))|Rr]; [left; split; [exact A|]; split; [exact B|]; eauto|right; exact Rr].
  - destruct b; [|destruct Ik]. destruct Ik as [<-|[]]. inversion Rf.
Qed.
End Close4.
