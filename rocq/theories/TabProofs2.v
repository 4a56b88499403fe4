(** Bridge lemmas: association lists, result lists, and statements about one table. *)
From Verif Require Import PyStr QuoteModel ObjectDict ObjectDictSpec ObjectDictProofs Types Objects SqlAst Ddl Mutate DbSpec CatSpec DbLemmas TabProofs1.
From stdpp Require Import gmap strings.
Open Scope list_scope.

Section Assoc.
  Context {A V : Type} (key : A -> string).
  Lemma get_find_by k l : od_get key k l = find_by key k l.
  Proof.
    unfold od_get. induction l as [|x l IH]; simpl; [reflexivity|].
    destruct (String.eqb_spec (key x) k); [now rewrite decide_True|now rewrite decide_False].
  Qed.
  Lemma lookup_list_to_map (f : A -> V) k l :
    (list_to_map (map (fun c => (key c, f c)) l) : gmap string V) !! k = f <$> find_by key k l.
  Proof.
    induction l as [|x l IH]; simpl; [apply lookup_empty|].
    case_decide as E; [subst k; now rewrite lookup_insert|]. now rewrite lookup_insert_ne.
  Qed.
  Lemma find_by_filter_nodup (P : A -> bool) k l :
    base.NoDup (map key l) ->
    find_by key k (List.filter P l) = match find_by key k l with Some x => if P x then Some x else None | None => None end.
  Proof.
    induction l as [|x l IH]; simpl; [reflexivity|]. intros W. apply NoDup_cons in W as [N W].
    case_decide as E.
    - destruct (P x) eqn:Ep; simpl; [now rewrite decide_True|].
      rewrite IH by exact W.
      assert (find_by key k l = None) as ->; [|reflexivity].
      apply find_by_none. subst k. intros H. apply N. now apply elem_of_list_In.
    - destruct (P x) eqn:Ep; simpl; [rewrite decide_False by exact E|]; now apply IH.
  Qed.
  Lemma nodup_map_filter (P : A -> bool) l : base.NoDup (map key l) -> base.NoDup (map key (List.filter P l)).
  Proof.
    rewrite !NoDup_ListNoDup. induction l as [|x l IH]; simpl; [auto|]. intros W. inversion W; subst.
    destruct (P x); simpl; [|auto]. constructor; [|auto].
    intros H. apply in_map_iff in H as (y & Ey & H). apply filter_In in H as [H _].
    match goal with N : ~ In _ _ |- _ => apply N end. rewrite <- Ey. now apply in_map.
  Qed.
  Lemma difference_find d e k : base.NoDup (map key d) ->
    find_by key k (od_difference key d e)
    = match find_by key k e with Some _ => None | None => find_by key k d end.
  Proof.
    intros W. unfold od_difference. rewrite find_by_filter_nodup by exact W.
    destruct (find_by key k d) as [x|] eqn:E; [|now destruct (find_by key k e)].
    apply find_by_some in E as [I <-].
    destruct (od_mem key (key x) e) eqn:M; simpl.
    - apply mem_spec in M. destruct (find_by key (key x) e) eqn:F; [reflexivity|].
      apply find_by_none in F. contradiction.
    - apply mem_false in M. destruct (find_by key (key x) e) eqn:F; [|reflexivity].
      apply find_by_some in F as [I2 E2]. exfalso. apply M. rewrite <- E2. now apply in_map.
  Qed.
  Lemma intersection_find d e k : base.NoDup (map key d) ->
    find_by (fun p => key (fst p)) k (od_intersection key d e)
    = match find_by key k d, find_by key k e with Some x, Some y => Some (x, y) | _, _ => None end.
  Proof.
    induction d as [|x d IH]; simpl; [reflexivity|]. intros W. apply NoDup_cons in W as [N W].
    rewrite get_find_by. specialize (IH W).
    case_decide as E.
    - subst k. destruct (find_by key (key x) e) as [y|] eqn:F; simpl.
      + now rewrite decide_True.
      + rewrite IH. now destruct (find_by key (key x) d).
    - destruct (find_by key (key x) e) as [y|] eqn:F; simpl; [rewrite decide_False by exact E|]; exact IH.
  Qed.
  Lemma intersection_keys_nodup d e : base.NoDup (map key d) ->
    base.NoDup (map (fun p => key (fst p)) (od_intersection key d e)).
  Proof.
    induction d as [|x d IH]; simpl; [constructor|]. intros W. apply NoDup_cons in W as [N W].
    destruct (od_get key (key x) e) eqn:G; [|auto]. simpl. apply NoDup_cons. split; [|auto].
    intros H. apply N. apply elem_of_list_In. apply elem_of_list_In in H. apply in_map_iff in H as ([u v] & E & H).
    apply intersection_in in H as [H _]. rewrite <- E. now apply in_map.
  Qed.
  Lemma intersection_same d e x y : In (x, y) (od_intersection key d e) -> In x d /\ In y e /\ key x = key y.
  Proof. intros H. apply intersection_in in H as [H G]. apply get_some in G as [G E]. auto. Qed.
End Assoc.

(** results *)
Definition ok_or {A} (d : A) (r : res A) : A := match r with Ok x => x | Err _ => d end.
Lemma map_res_ok {A B} (f : A -> res B) l r :
  map_res f l = Ok r -> (forall x, In x l -> exists y, f x = Ok y)
    /\ r = concat (map (fun x => match f x with Ok y => [y] | Err _ => [] end) l).
Proof.
  revert r. induction l as [|a l IH]; simpl; intros r H.
  - injection H as <-. split; [contradiction|reflexivity].
  - destruct (f a) as [b|] eqn:E; simpl in H; [|discriminate].
    destruct (map_res f l) as [bs|]; simpl in H; [|discriminate]. injection H as <-.
    destruct (IH bs eq_refl) as [H1 ->]. split; [|reflexivity].
    intros x [->|I]; eauto.
Qed.
Lemma concat_res_ok {A B} (f : A -> res (list B)) l r :
  concat_res f l = Ok r -> (forall x, In x l -> exists y, f x = Ok y)
    /\ r = concat (map (fun x => ok_or [] (f x)) l).
Proof.
  unfold concat_res. destruct (map_res f l) as [xs|] eqn:E; simpl; [|discriminate]. intros [= <-].
  revert xs E. induction l as [|a l IH]; simpl; intros r H.
  - injection H as <-. split; [contradiction|reflexivity].
  - destruct (f a) as [b|] eqn:E; simpl in H; [|discriminate].
    destruct (map_res f l) as [bs|]; simpl in H; [|discriminate]. injection H as <-.
    destruct (IH bs eq_refl) as [H1 H2]. split; [intros x [->|I]; eauto|]. simpl. now rewrite H2.
Qed.
Lemma concat_res_in {A B} (f : A -> res (list B)) l r y :
  concat_res f l = Ok r -> In y r -> exists x ys, In x l /\ f x = Ok ys /\ In y ys.
Proof.
  intros H. apply concat_res_ok in H as [H ->]. intros I. apply in_concat in I as (ys & I & Iy).
  apply in_map_iff in I as (x & <- & Ix). destruct (H x Ix) as [z Hz]. rewrite Hz in Iy. eauto.
Qed.
Lemma map_res_in {A B} (f : A -> res B) l r y :
  map_res f l = Ok r -> In y r -> exists x, In x l /\ f x = Ok y.
Proof.
  intros H. apply map_res_ok in H as [H ->]. intros I. apply in_concat in I as (ys & I & Iy).
  apply in_map_iff in I as (x & <- & Ix). destruct (H x Ix) as [z Hz]. rewrite Hz in Iy. destruct Iy as [<-|[]]. eauto.
Qed.
Lemma table_error_ok {A} (r : res A) x : table_error r = Ok x -> r = Ok x.
Proof. destruct r as [y|e]; simpl; [auto|]. destruct (String.eqb e _); discriminate. Qed.

(** ** Statements about one table *)
Inductive tact : Type := TA (a : action) | TTab (c : option string) | TCol (n : string) (c : option string).
Definition tstep (E : engine) (x : tact) (t : dbtab) : option dbtab :=
  match x with
  | TA a => exec_action E a t
  | TTab c => Some (DbTab (dt_cols t) (dt_pk t) (dt_cons t) (norm_comment c))
  | TCol n c => upd_col n (fun x => Some (with_comment (norm_comment c) x)) t
  end.
Definition flat (s : stmt) : list tact :=
  match s with
  | SAlterTable _ acts => map TA acts
  | SCommentTable _ c => [TTab c]
  | SMyTableComment _ c => [TTab (Some c)]
  | SCommentColumn _ n c => [TCol n c]
  | _ => []
  end.
(** a statement of one of these forms about [q], or one about rows *)
Definition tab_stmt (k : okey) (s : stmt) : Prop :=
  match s with
  | SAlterTable q _ | SCommentTable q _ | SMyTableComment q _ | SCommentColumn q _ _ => key_of q = k
  | SInsert _ _ _ _ | SInsertDistinct _ _ _ | SUpdateLookup _ _ _ _ => True
  | _ => False
  end.

Lemma run_TA E acts t : run (tstep E) (map TA acts) t = exec_actions E acts t.
Proof. revert t. induction acts as [|a l IH]; intros t; simpl; [reflexivity|]. destruct (exec_action E a t); simpl; auto. Qed.

Lemma set_obj_lookup k o D : db_objs (set_obj k o D) !! k = o.
Proof. unfold set_obj. simpl. apply lookup_partial_alter. Qed.
Lemma set_obj_lookup_ne k k' o D : k <> k' -> db_objs (set_obj k o D) !! k' = db_objs D !! k'.
Proof. intros N. unfold set_obj. simpl. now rewrite lookup_partial_alter_ne. Qed.
Lemma set_obj_id k o D : db_objs D !! k = o -> set_obj k o D = D.
Proof.
  intros H. destruct D as [sc m]. unfold set_obj. simpl in *. f_equal.
  apply map_eq. intros i. destruct (decide (k = i)) as [<-|N].
  - now rewrite lookup_partial_alter.
  - now rewrite lookup_partial_alter_ne.
Qed.
Lemma set_obj_set k o o' D : set_obj k o (set_obj k o' D) = set_obj k o D.
Proof.
  unfold set_obj. simpl. f_equal. apply map_eq. intros i. destruct (decide (k = i)) as [<-|N].
  - now rewrite !lookup_partial_alter.
  - now rewrite !lookup_partial_alter_ne.
Qed.

Lemma exec_flat E k stmts D tb :
  Forall (tab_stmt k) stmts -> db_objs D !! k = Some (OTable tb) ->
  exec_all E stmts D = (tb' ← run (tstep E) (flat_map flat stmts) tb; Some (set_obj k (Some (OTable tb')) D)).
Proof.
  intros F. revert D tb. induction F as [|s l Hs F IH]; intros D tb HD; simpl.
  - now rewrite set_obj_id.
  - rewrite run_app.
    assert (G : exec E s D = (tb' ← run (tstep E) (flat s) tb; Some (set_obj k (Some (OTable tb')) D))).
    { destruct s; simpl in Hs; try contradiction; subst; simpl;
        try (now rewrite set_obj_id by exact HD); unfold upd_table; rewrite HD; try reflexivity.
      - rewrite run_TA. reflexivity.
      - match goal with |- context [upd_col ?n ?f tb] => destruct (upd_col n f tb) end; reflexivity. }
    rewrite G. destruct (run (tstep E) (flat s) tb) as [tb1|]; simpl; [|reflexivity].
    rewrite (IH _ tb1); [|apply set_obj_lookup].
    destruct (run (tstep E) (flat_map flat l) tb1); simpl; [|reflexivity]. now rewrite set_obj_set.
Qed.

Lemma flat_alter d q acts : flat_map flat (alter_table d q acts) = map TA acts.
Proof.
  destruct d; simpl; rewrite ?app_nil_r; try reflexivity;
  induction acts as [|a l IH]; simpl; congruence.
Qed.
Lemma tab_alter d q acts : Forall (tab_stmt (key_of q)) (alter_table d q acts).
Proof.
  destruct d; simpl; try (repeat constructor);
  apply List.Forall_forall; intros x Hx; apply in_map_iff in Hx as (a & <- & _); reflexivity.
Qed.
